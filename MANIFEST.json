{
 "claims": [
  {
   "property": "C01",
   "status": "proved",
   "theorems": [
    "C01_target_ids_never_reused",
    "C01_returned_ids_were_stamped"
   ],
   "note": "Holds while the counter is not reset by hand; ids handed out were all stamped by a refill."
  },
  {
   "property": "C02",
   "status": "proved",
   "theorems": [
    "C02_first_tier_first_best",
    "C02_refill_succeeds"
   ],
   "note": "Includes that a refill raises nothing when every tier has a survey and surveys return arrays."
  },
  {
   "property": "C03",
   "status": "proved",
   "theorems": [
    "C03_completed_never_handed_out"
   ],
   "note": "Holds for detailers that keep target ids and queues not appended to by hand with the same id."
  },
  {
   "property": "C04",
   "status": "partial",
   "theorems": [
    "C04_earliest_outstanding_partial",
    "C04_tie_refuted"
   ],
   "note": "Proved when no flush time ties (relative 1e-9) with the current time (C04_earliest_outstanding_partial). Refuted without that condition: C04_tie_refuted (an entry flushing now makes one that expired 0.3 days ago be handed out first)."
  },
  {
   "property": "C05",
   "status": "partial",
   "theorems": [
    "C05_expired_not_returned_refuted",
    "C05_at_most_one_day_late",
    "C05_exact_without_ties"
   ],
   "note": "Refuted as stated (near ties loosen the test for the whole queue); proved without ties, and an unconditional one-day bound is proved."
  },
  {
   "property": "C06",
   "status": "partial",
   "theorems": [
    "C06_mjd_argument_honoured_refuted"
   ],
   "note": "Refuted as stated: the argument is ignored."
  },
  {
   "property": "C07",
   "status": "proved",
   "theorems": [
    "C07_none_only_after_refill",
    "C07_queue_kept_while_valid"
   ],
   "note": "None implies a refill in the same call with nothing acceptable; the queue is kept while something in it is acceptable."
  },
  {
   "property": "C08",
   "status": "proved",
   "theorems": [
    "C08_alert_flushes_at_most_once"
   ],
   "note": ""
  },
  {
   "property": "C09",
   "status": "proved",
   "theorems": [
    "C09_scheduled_list",
    "C09_all_surveys_once"
   ],
   "note": ""
  },
  {
   "property": "C10",
   "status": "proved",
   "theorems": [
    "C10_batch_equals_single",
    "C10_batch_equals_single_counter"
   ],
   "note": ""
  },
  {
   "property": "C11",
   "status": "partial",
   "theorems": [
    "C11_batch_equals_single_nonempty",
    "C11_batch_equals_single_refuted"
   ],
   "note": "Refuted as stated for an empty queue; proved for a non-empty one."
  },
  {
   "property": "C12",
   "status": "proved",
   "theorems": [
    "C12_rows_exactly_once",
    "C12_batch_equals_single_rows",
    "C12_batch_equals_single_rows_refuted"
   ],
   "note": "Rows exact. The extra question whether single and batch reports agree is answered too: yes for rotation independent footprints, refuted otherwise."
  },
  {
   "property": "C13",
   "status": "partial",
   "theorems": [
    "C13_labels_distinct_refuted",
    "C13_labels_distinct_partial",
    "C13_labels_meaning",
    "C13_labels_nonempty"
   ],
   "note": "Refuted as stated (names X, X, 'X 1'); the exact condition for distinct labels is proved as an equivalence, and what each label says."
  },
  {
   "property": "C14",
   "status": "partial",
   "theorems": [
    "C14_exact_away_from_ties",
    "C14_one_sided",
    "C14_equal_values",
    "C14_shapes",
    "C14_exact_per_index_refuted",
    "C14_close_values_equal_refuted"
   ],
   "note": "Refuted as stated per index; proved for arrays without near ties and for single values."
  },
  {
   "property": "C15",
   "status": "proved",
   "theorems": [
    "C15_bookkeeping",
    "C15_bookkeeping_calls",
    "C15_reported_before_request_calls",
    "C15_no_index_error"
   ],
   "note": "For runs that end normally; storing never raises IndexError with a positive growth size."
  },
  {
   "property": "C16",
   "status": "partial",
   "theorems": [
    "C16_limit_respected_partial",
    "C16_limit_respected_refuted"
   ],
   "note": "Refuted as stated for limit 0, proved for positive limits."
  },
  {
   "property": "C17",
   "status": "partial",
   "theorems": [
    "C17_no_expired_execution_refuted",
    "C17_requests_fresh",
    "C17_no_expired_execution_partial"
   ],
   "note": "Refuted as stated with default settings; with update_conditions_every_obs requests are fresh and lateness is at most one day (C05 ties)."
  },
  {
   "property": "C18",
   "status": "proved",
   "theorems": [
    "C18_visits_in_order"
   ],
   "note": "For sorted nights, disjoint downtimes and non-negative slew and visit times; clients may only move the clock forward."
  },
  {
   "property": "C19",
   "status": "proved",
   "theorems": [
    "C19_skip_lands_on_good_time",
    "C19_good_time_accepted"
   ],
   "note": "For searches that end; nights sorted and disjoint, downtimes sorted and disjoint."
  },
  {
   "property": "C20",
   "status": "proved",
   "theorems": [
    "C20_lookup_exact"
   ],
   "note": ""
  },
  {
   "property": "C21",
   "status": "partial",
   "theorems": [
    "C21_merge_preserves_coverage_partial",
    "C21_lookup_after_merge",
    "C21_merge_preserves_coverage_refuted",
    "C21_single_downtime_refuted"
   ],
   "note": "Refuted as stated: start-up raises ValueError when all downtimes merge into one block or there are fewer than two; coverage is exact in every other case."
  },
  {
   "property": "C22",
   "status": "proved",
   "theorems": [
    "C22_duration_monotone",
    "C22_duration_continuous",
    "C22_duration_is_feasible_motion"
   ],
   "note": "Also for the two-phase (no jerk) mode; the duration is realised by a motion within the limits."
  },
  {
   "property": "C23",
   "status": "partial",
   "theorems": [
    "C23_cable_wrap_partial",
    "C23_shortest_allowed_move",
    "C23_restricted_range_partial",
    "C23_restricted_range_refuted",
    "C23_restricted_motion"
   ],
   "note": "Proved for ranges of at least a full turn; for smaller ranges the stored value is inside the limits only modulo a full turn (refuted literally), while the motion itself joins two positions within the turn from the lower limit on (C23_restricted_motion)."
  },
  {
   "property": "C24",
   "status": "proved",
   "theorems": [
    "C24_impossible_slew_refused",
    "C24_impossible_observe_refused",
    "C24_impossible_visit_refused",
    "C24_slew_without_rotation_raises"
   ],
   "note": "Also: every visit that is not impossible is made and nothing raises over observe/park/mount histories; a bare tracking slew without rotator angle makes the next slew raise TypeError."
  },
  {
   "property": "C25",
   "status": "partial",
   "theorems": [
    "C25_cumulative_azimuth_partial",
    "C25_cumulative_azimuth_refuted"
   ],
   "note": "Refuted as stated: motion while tracking is not accumulated; the exact identity including that drift is proved."
  },
  {
   "property": "C26",
   "status": "partial",
   "theorems": [
    "C26_open_loop_slope_refuted",
    "C26_open_loop_slope_partial"
   ],
   "note": "Refuted as stated: the code uses the reciprocal slope with degrees and radians mixed; the time the code does add is proved."
  },
  {
   "property": "C27",
   "status": "proved",
   "theorems": [
    "C27_overhead_bounds_next_slew"
   ],
   "note": "For non-negative configured times and positive rotator limits."
  },
  {
   "property": "C28",
   "status": "proved",
   "theorems": [
    "C28_smallest_signed_angle"
   ],
   "note": ""
  },
  {
   "property": "C29",
   "status": "proved",
   "theorems": [
    "C29_offered_rows_eligible"
   ],
   "note": "For sort_potential_result None or HA (others raise), sidereal time and right ascensions inside [0, 24) hours; the time -1 is the initial cache key and excluded."
  },
  {
   "property": "C30",
   "status": "partial",
   "theorems": [
    "C30_completed_not_offered_at_new_times",
    "C30_refuted",
    "C30_cleared_refuted"
   ],
   "note": "Refuted for the time last asked (cached answer, also after clear_script); proved for every time not asked before."
  },
  {
   "property": "C31",
   "status": "partial",
   "theorems": [
    "C31_array_single_agree_unless_ignored",
    "C31_refuted",
    "C31_scheduled_refuted"
   ],
   "note": "Refuted for reports matching an ignore string and for the scheduled-times list; proved for all other reports."
  },
  {
   "property": "C32",
   "status": "partial",
   "theorems": [
    "C32_notes_distinct_when_short",
    "C32_refuted",
    "C32_own_indices_refuted",
    "C32_too_ids_refuted"
   ],
   "note": "Refuted for notes that do not fit 60 characters with their index, when mixed with add_index=False, and for the ToO survey's flush; proved for short notes."
  },
  {
   "property": "C33",
   "status": "proved",
   "theorems": [
    "C33_scripted_at_most_once",
    "C33_alert_effect",
    "C33_rows_follow_plan",
    "C33_offered_rows_eligible"
   ],
   "note": "Plan theorem for event_gen_detailers that leave the rows alone; the others for any detailers."
  },
  {
   "property": "C34",
   "status": "partial",
   "theorems": [
    "C34_mounted_loaded_first_flush",
    "C34_string_sequence_deterministic",
    "C34_string_sequence_counts",
    "C34_sequence_order_refuted"
   ],
   "note": "Mounted selection, loaded band first, one flush time and per-band counts proved. \"Otherwise in sequence order\" is refuted: the constructor sorts the sequence by band, so the rest comes in band order."
  },
  {
   "property": "C35",
   "status": "partial",
   "theorems": [
    "C35_deep_drilling_duration",
    "C35_field_duration_576_times",
    "C35_field_duration_refuted",
    "C35_field_generated",
    "C35_field_sequence"
   ],
   "note": "Refuted for FieldSurvey as stated: `/= 3600.0 / 24.0` divides by 150 rather than 86400, so the estimate is 576 times too large (proved for all sequences). Proved for the deep drilling survey. What the field survey generates is proved in full."
  },
  {
   "property": "C36",
   "status": "partial",
   "theorems": [
    "C36_markov_reward",
    "C36_markov_empty",
    "C36_infeasible_no_reward",
    "C36_chosen_has_reward",
    "C36_field_masked_refuted",
    "C36_field_reward"
   ],
   "note": "Infeasible part proved for base, deep drilling, field and Markov surveys and the selection half for every table. Refuted for the field survey with a map that is -inf everywhere: it reports +inf."
  },
  {
   "property": "C37",
   "status": "partial",
   "theorems": [
    "C37_note_in_night",
    "C37_obs_count",
    "C37_obs_count_night_partial",
    "C37_obs_count_night_refuted",
    "C37_obs_count_bands_refuted",
    "C37_last_observation",
    "C37_last_matching",
    "C37_last_matching_refuted",
    "C37_n_observations",
    "C37_seeing_limit_refuted",
    "C37_seeing_map_refuted",
    "C37_note_direction_refuted",
    "C37_last_times_partial",
    "C37_last_times_refuted",
    "C37_last_observed",
    "C37_obs_night",
    "C37_obs_night_refuted",
    "C37_current_season_partial",
    "C37_current_season_refuted",
    "C37_current_season_ra_refuted",
    "C37_pairs_partial",
    "C37_pairs_refuted",
    "C37_batching_irrelevant"
   ],
   "note": "Any mix of batches and single visits proved equal to a count over the history for NoteInNight, LastObservation, LastObservationMjd, LastObserved, NObsNight and NObsCount with one-letter bands, LastObservedMatching off the distance limit, NObservations with no or one seeing limit off the limit; NObsCount per night and LastNObsTimes for one batch given first; NObservationsCurrentSeason and PairInNight under stated conditions. Refuted at the seeing and distance limits, for seeing maps, multi-letter bands, later batches in NObsCount per night and LastNObsTimes, pixel 0 and season edges, and pairs over two nights."
  },
  {
   "property": "C38",
   "status": "proved",
   "theorems": [
    "C38_simple",
    "C38_comcam",
    "C38_comcam_above",
    "C38_uzy",
    "C38_uzy_swaps_each_call",
    "C38_date"
   ],
   "note": "Moon phases less than one part in 1e9 above the limit give one of the two sets; outside the tables see C38_comcam_above and C38_date."
  },
  {
   "property": "C39",
   "status": "proved",
   "theorems": [
    "C39_tour",
    "C39_three_opt",
    "C39_three_opt_best",
    "C39_optimize",
    "C39_insert",
    "C39_outer_order"
   ],
   "note": "Assumes of Qhull that it returns distinct positions of the points given, at least one. Exact lengths; NaN or infinite coordinates are not modelled. At least one pointing."
  },
  {
   "property": "C40",
   "status": "proved",
   "theorems": [
    "C40_season",
    "C40_step",
    "C40_fraction"
   ],
   "note": "Season length above zero, modulo above zero. Without floor, values at least one part in 1e9 off max_season."
  },
  {
   "property": "C41",
   "status": "partial",
   "theorems": [
    "C41_round_trip_partial",
    "C41_columns",
    "C41_shipped_partial",
    "C41_note_refuted"
   ],
   "note": "Round trip proved for all columns but note, with the shipped and with any consistent map, over real arithmetic; refuted for note."
  },
  {
   "property": "C42",
   "status": "proved",
   "theorems": [
    "C42_server"
   ],
   "note": "Start times within 2^1000 days."
  },
  {
   "property": "C43",
   "status": "partial",
   "theorems": [
    "C43_ahead_replay_partial",
    "C43_pending_partial",
    "C43_request_returns_partial",
    "C43_request_none_refuted",
    "C43_out_of_order_refuted",
    "C43_flush_refuted",
    "C43_expired_refuted"
   ],
   "note": "Agreement, pending visits and non-failing requests proved when visits carry no expiry and the queue has no mask, reports come in the order of requests (for the list of pending visits) and surveys can always deliver (for requests). Refuted when nothing can be observed (AttributeError instead of None), for reports out of order, after a flush and for expired queues."
  },
  {
   "property": "C44",
   "status": "proved",
   "theorems": [
    "C44_requests_within_period"
   ],
   "note": ""
  },
  {
   "property": "C45",
   "status": "partial",
   "theorems": [
    "C45_visit_outside_downtime_refuted",
    "C45_visit_outside_downtime_partial"
   ],
   "note": "Refuted as stated; holds when every downtime is at least as long as slew plus visit."
  },
  {
   "property": "C46",
   "status": "proved",
   "theorems": [
    "C46_conditions_reach_all_surveys"
   ],
   "note": ""
  },
  {
   "property": "C47",
   "status": "proved",
   "theorems": [
    "C47_band_in_use_is_mounted",
    "C47_no_band"
   ],
   "note": "Band exchanges must be non-empty: the code takes the last of the list. C47_no_band: a slew without a band is one in the band in use."
  },
  {
   "property": "C48",
   "status": "proved",
   "theorems": [
    "C48_wrap_keeps_direction"
   ],
   "note": "Direction for all reals; ranges for declinations up to three half-pi."
  },
  {
   "property": "C49",
   "status": "proved",
   "theorems": [
    "C49_repeat_costs_overhead"
   ],
   "note": "For azimuth ranges of at least a full turn, positive closed loop limit and field of view, and rotator conversions that invert each other."
  },
  {
   "property": "C50",
   "status": "proved",
   "theorems": [
    "C50_slew_no_faster_than_parts"
   ],
   "note": "Dome bounds for the exact (not lax) dome; positive axis limits, non-negative delays."
  },
  {
   "property": "C51",
   "status": "partial",
   "theorems": [
    "C51_exposures_before_twilight_partial",
    "C51_refuted",
    "C51_withheld_refuted"
   ],
   "note": "Refuted both ways (equal neighbours are counted instead of changes); proved for the exposures alone."
  },
  {
   "property": "C52",
   "status": "partial",
   "theorems": [
    "C52_refuted"
   ],
   "note": "Refuted: feasibility is never consulted."
  },
  {
   "property": "C53",
   "status": "proved",
   "theorems": [
    "C53_reward_iff_something_offered"
   ],
   "note": ""
  },
  {
   "property": "C54",
   "status": "partial",
   "theorems": [
    "C54_followed_alerts_scripted_unless_raise",
    "C54_refuted",
    "C54_no_type_refuted"
   ],
   "note": "Refuted: update_mjd0 with an alert not yet started raises and the alert is lost; alerts without a type raise. Proved for runs without exceptions."
  },
  {
   "property": "C55",
   "status": "proved",
   "theorems": [
    "C55_ignored_same_single_and_batch"
   ],
   "note": "Sort order on mjd left abstract (any permutation)."
  },
  {
   "property": "C56",
   "status": "partial",
   "theorems": [
    "C56_blob_area",
    "C56_blob_area_enough",
    "C56_finite_area_refuted",
    "C56_pairs_area_refuted",
    "C56_pairs_area_scaled",
    "C56_greedy_area"
   ],
   "note": "For BlobSurvey proved both ways with \"observable\" read as not NaN; refuted for finite pixels (-inf pixels count), for BlobPairsSurvey (square degrees compared with steradians, C56_pairs_area_scaled says what it does require) and for greedy surveys (AttributeError)."
  },
  {
   "property": "C57",
   "status": "partial",
   "theorems": [
    "C57_block_positive",
    "C57_block_fits",
    "C57_twilight_block_fits",
    "C57_scheduled_refuted",
    "C57_twilight_scheduled_refuted"
   ],
   "note": "Proved for twilight_scale, for in_twilight, and for scheduled observations without twilight_scale. Refuted for scheduled observations together with twilight_scale (overrun at most time_needed, proved) and with in_twilight."
  },
  {
   "property": "C58",
   "status": "proved",
   "theorems": [
    "C58_grow_order",
    "C58_grow_total",
    "C58_grow_empty_raises"
   ],
   "note": "Neighbour table arbitrary but symmetric; the healpix table itself is not modelled."
  },
  {
   "property": "C59",
   "status": "partial",
   "theorems": [
    "C59_greedy_best",
    "C59_greedy_full_refuted",
    "C59_blob_simple_order"
   ],
   "note": "All proved but one clause: \"as many as block_size when enough fields are available\" is refuted for the greedy survey because pixels are cut before fields are made unique."
  },
  {
   "property": "C60",
   "status": "partial",
   "theorems": [
    "C60_passes",
    "C60_passes_repeat",
    "C60_pair_region_refuted",
    "C60_grown_masked_refuted",
    "C60_bands",
    "C60_no_second_band_refuted"
   ],
   "note": "Counts, distinctness, bands and the radius of the first pass proved; same region proved when no observable pixel is out of reach and the tessellation is kept. Refuted otherwise, and refuted for fields whose pixels are all -inf and for a missing second band."
  },
  {
   "property": "C61",
   "status": "partial",
   "theorems": [
    "C61_night_rotation",
    "C61_night_minus_one_refuted",
    "C61_call_rotation_fresh",
    "C61_call_back_refuted"
   ],
   "note": "Night mode for nights >= 0 (refuted at -1); call mode while nights do not go back (refuted otherwise)."
  },
  {
   "property": "C62",
   "status": "proved",
   "theorems": [
    "C62_calc_season",
    "C62_season_zero"
   ],
   "note": ""
  },
  {
   "property": "C63",
   "status": "proved",
   "theorems": [
    "C63_pairs_counted"
   ],
   "note": "Band and pixel lists as in the statement; the rows of the batch have at least one pixel each."
  },
  {
   "property": "C64",
   "status": "partial",
   "theorems": [
    "C64_flush_partial",
    "C64_flush_refuted"
   ],
   "note": "Proved when some pixel of the altitude map is at or above the limit and the footprint has no negative values; refuted otherwise (the call raises)."
  },
  {
   "property": "C65",
   "status": "partial",
   "theorems": [
    "C65_position_fresh",
    "C65_settled_partial",
    "C65_available_partial",
    "C65_m5_partial",
    "C65_sun_refuted",
    "C65_wind_refuted",
    "C65_observatory_airmass_refuted",
    "C65_m5_nan_refuted"
   ],
   "note": "Sidereal time, hour angle, altitude, azimuth and parallactic angle always fresh. Airmass, elongation, Sun azimuth and wind pressure only while their inputs are not set again after the first read; depths also only if no read failed. Stale values, the airmass of return_conditions and the NaN depths after a failed read are refuted. Formulas are arbitrary functions."
  },
  {
   "property": "C66",
   "status": "partial",
   "theorems": [
    "C66_open_inside",
    "C66_open_exact_partial",
    "C66_times_cover",
    "C66_cache_partial",
    "C66_two_ranges_refuted",
    "C66_caller_range_refuted",
    "C66_cache_refuted"
   ],
   "note": "Soundness for all limits except the caller's azimuth range after the first step; exactness with no allowed azimuth range, or one and a full-turn caller range. Two ranges, a caller range with an allowed range, and changed limits after a call are refuted. IntRounded altitude comparison is an arbitrary elementwise relation."
  },
  {
   "property": "C67",
   "status": "partial",
   "theorems": [
    "C67_roll_band",
    "C67_close_alt",
    "C67_band_sort_partial",
    "C67_band_sort_refuted",
    "C67_chunk_by_ha_partial",
    "C67_chunk_start",
    "C67_chunk_by_ha_refuted"
   ],
   "note": "Rolling and CloseAlt for all lists. BandSort and ChunkByHA when the order names every band of the list exactly once (always so for BandSort with no order given). A missing band drops observations, a repeated one duplicates them, and ChunkByHA with nothing above its limit raises: refuted. Hour angle, altitude, distance and the spatial order are arbitrary functions."
  },
  {
   "property": "C68",
   "status": "partial",
   "theorems": [
    "C68_truncate",
    "C68_triple_partial",
    "C68_triple_refuted",
    "C68_triple_short_refuted",
    "C68_triple_dark_refuted"
   ],
   "note": "Truncation proved for all lists. The twilight triple is only proved to repeat a nonempty prefix; that its passes fit, and that the prefix is the longest, are refuted, and it raises when no twilight is left."
  },
  {
   "property": "C69",
   "status": "partial",
   "theorems": [
    "C69_substitute",
    "C69_substitute_refuted",
    "C69_pick_too",
    "C69_tracking",
    "C69_flush_by",
    "C69_flush_for_sched_refuted",
    "C69_band_to_filter",
    "C69_random_band",
    "C69_random_band_refuted",
    "C69_band_nexp",
    "C69_start_sequence_partial",
    "C69_start_sequence_refuted",
    "C69_take_as_pairs"
   ],
   "note": "Frame and effect proved for all ten detailers except: the substituted band need not be mounted, FlushForSched never has an effect, RandomBand fails when no fallback band is mounted, and StartFieldSequence matches within 3.5 degrees whatever radius was given; these are refuted. StartFieldSequence for visits reported one at a time in order of time. Columns not listed in the model are not represented."
  },
  {
   "property": "C70",
   "status": "partial",
   "theorems": [
    "C70_index_partial",
    "C70_index_refuted",
    "C70_pairs_refuted",
    "C70_index_frame",
    "C70_tag_radial"
   ],
   "note": "Distinct when the separator does not end in a digit and the notes fit the 60-character column; both conditions are shown necessary."
  },
  {
   "property": "C71",
   "status": "proved",
   "theorems": [
    "C71_convert",
    "C71_round_trip_tel",
    "C71_round_trip_sky"
   ],
   "note": "Exact angles; float rounding not modelled."
  },
  {
   "property": "C72",
   "status": "partial",
   "theorems": [
    "C72_update_sound",
    "C72_update_partial",
    "C72_update_tie_refuted",
    "C72_update_narrow_refuted",
    "C72_update_unset_refuted",
    "C72_update_from_tel",
    "C72_update_no_angle"
   ],
   "note": "Soundness and nearness proved for limits within half a turn; with limits on both sides of zero more than a quarter turn apart only a tie can fail. Ties, narrow limits and an unset rotSkyPos are refuted."
  },
  {
   "property": "C73",
   "status": "partial",
   "theorems": [
    "C73_rotsp_update",
    "C73_rotsp_update_refuted",
    "C73_parallactic",
    "C73_parallactic_refuted",
    "C73_comcam90_partial",
    "C73_comcam90_refuted",
    "C73_comcam90_list_refuted",
    "C73_camera_rot_night_partial",
    "C73_camera_rot_night_refuted",
    "C73_camera_rot_call_partial",
    "C73_camera_rot_call_refuted",
    "C73_camera_rot_range",
    "C73_camera_rot_start",
    "C73_camera_rot_rows",
    "C73_small_rot_partial",
    "C73_small_rot_rows",
    "C73_small_rot_refuted"
   ],
   "note": "RotspUpdate proved when the backup rotTelPos is within limits (refuted otherwise). ParallacticRotation for its default limits (refuted for narrower). Comcam90 refuted: double conversion to radians, and answers depend on the rest of the list. CameraRot for nights in its table and non-negative seeds (both refuted outside). CameraSmallRot when the steps fit the range and are not negative (refuted otherwise)."
  },
  {
   "property": "C74",
   "status": "partial",
   "theorems": [
    "C74_per_night",
    "C74_seeds",
    "C74_seeds_refuted",
    "C74_per_visit_partial",
    "C74_per_visit_stale_refuted",
    "C74_per_visit_repeat_refuted",
    "C74_per_visit_stuck_refuted",
    "C74_per_visit_broadcast_refuted",
    "C74_ra_moves",
    "C74_ra_range_refuted"
   ],
   "note": "Per night proved for all histories; seeds distinct within fifty years of the start. Per visit proved for the lists of a night in which a visit was already recorded (or when none ever was) and while positions last; the first list of a night is placed by the previous night's count, which repeats positions and can block all later nights: refuted. RA is not wrapped: refuted. Offsets drawn for a seed are an input."
  },
  {
   "property": "C75",
   "status": "partial",
   "theorems": [
    "C75_split",
    "C75_split_features_refuted",
    "C75_split_size_refuted",
    "C75_delta_partial",
    "C75_delta_sizes",
    "C75_delta_empty_refuted",
    "C75_grid",
    "C75_grid_distinct",
    "C75_euclid",
    "C75_euclid_seed_refuted"
   ],
   "note": "Split proved for detailers that keep the number of observations; it does not pass completed visits on, and fails for others: refuted. DeltaCoord proved for non-empty lists, empty raises. ComCamGrid and Euclid placement proved; Euclid seeds of negative nights collide (refuted). The spherical geometry is an input."
  },
  {
   "property": "C76",
   "status": "partial",
   "theorems": [
    "C76_region_partial",
    "C76_ddf_partial",
    "C76_ddf_away",
    "C76_both_partial",
    "C76_again_partial",
    "C76_cut_refuted",
    "C76_reproducible_refuted",
    "C76_ddf_last",
    "C76_ddf_clobber_refuted"
   ],
   "note": "Proved when the labels fit the 60 characters of the column and avoid the first character of the separator. Longer lists are cut, leaving stumps, the text depends on set iteration order, and without append only the last deep field is named: refuted. The labels under and fields near a pointing are inputs."
  },
  {
   "property": "C77",
   "status": "partial",
   "theorems": [
    "C77_exptime",
    "C77_one_time",
    "C77_limits_partial",
    "C77_limits_refuted",
    "C77_limits_high_refuted",
    "C77_depth",
    "C77_monotone",
    "C77_again",
    "C77_fails",
    "C77_neighbour_refuted"
   ],
   "note": "Time, rounding, monotonicity, repetition and failures proved over the reals. Limits proved for whole-second limits, refuted otherwise. A missing neighbour (-1) reads the last pixel of the map: refuted. Pixels and neighbours are inputs; infinite depths not modelled."
  },
  {
   "property": "C78",
   "status": "partial",
   "theorems": [
    "C78_delay",
    "C78_delay_open",
    "C78_fraction_open",
    "C78_fraction_partial",
    "C78_fraction_refuted",
    "C78_fraction_reopens",
    "C78_once",
    "C78_once_open",
    "C78_once_stale_refuted",
    "C78_once_alone",
    "C78_soft_partial",
    "C78_soft_catches_up",
    "C78_soft_first_refuted",
    "C78_gap_open",
    "C78_gap"
   ],
   "note": "Delay and gap proved as stated. The fraction is proved up to one block; the fraction itself refuted. OnceInNight: one block a night proved; opening again refuted (it keeps the night of the last visit, so a survey on its own runs once). SoftDelay proved once something has been observed; before that it raises ZeroDivisionError. Visits are reported one at a time and in the order of time."
  },
  {
   "property": "C79",
   "status": "partial",
   "theorems": [
    "C79_fresh",
    "C79_cached_partial",
    "C79_cached_refuted",
    "C79_area",
    "C79_area_deaf",
    "C79_area_refuted"
   ],
   "note": "Proved for classes whose _calc_value keeps no books and leaves the features alone; a class that keeps the books is proved fresh when conditions at one time agree, refuted otherwise. AreaCheckMask: mask and area proved, but it never forwards visits to its functions: refuted. Classes whose _calc_value changes features (season updates) are outside the model."
  },
  {
   "property": "C80",
   "status": "partial",
   "theorems": [
    "C80_to_twilight",
    "C80_not_twilight",
    "C80_dark_block",
    "C80_close",
    "C80_close_refuted",
    "C80_after_evening_partial",
    "C80_end_of_evening_partial",
    "C80_evening_refuted",
    "C80_to_scheduled",
    "C80_window",
    "C80_modulo",
    "C80_bands",
    "C80_no_bands_refuted",
    "C80_hour_angle_partial",
    "C80_hour_angle_refuted",
    "C80_rising_more_partial",
    "C80_rising_more_refuted",
    "C80_ahead_behind",
    "C80_ahead_west",
    "C80_ahead_fraction_refuted",
    "C80_ahead_units_refuted"
   ],
   "note": "Twilight, scheduled, windows, nights and bands proved as stated, the scheduled list being the one of the core scheduler. Refuted: CloseToTwilight opens in the evening, AfterEveningTwi before and EndOfEvening after twilight; BandLoaded raises for no bands; hour-angle limits below zero are lost (proved within 0-24); RisingMore misses targets when the hour angle wraps (proved otherwise); LookAheadDdf ignores its fraction, mixes days with hours, compares moonset with a duration, and raises before the first visit."
  },
  {
   "property": "C81",
   "status": "partial",
   "theorems": [
    "C81_after_n",
    "C81_after_n_bound",
    "C81_after_n_seeing",
    "C81_night_partial",
    "C81_night_bound",
    "C81_night_refuted",
    "C81_season_partial",
    "C81_season_bound",
    "C81_season_refuted",
    "C81_seeing_refuted",
    "C81_gap_partial",
    "C81_gap_kept_partial",
    "C81_gap_refuted"
   ],
   "note": "The count masks without a boundary are proved as stated; the bounds over a run hold for all three, across nights and seasons. Refuted: NInNightMask keeps last night's pixels masked until a visit of the new night is reported, the season mask keeps last season's (both proved once a visit of the night or season has been reported), a visit without seeing raises in the per-season count, and one pixel seen exactly the gap ago opens others seen within half a day (proved without ties)."
  },
  {
   "property": "C82",
   "status": "partial",
   "theorems": [
    "C82_sequence",
    "C82_balance_partial",
    "C82_balance_refuted",
    "C82_boost_refuted",
    "C82_note_part_refuted",
    "C82_band_turns",
    "C82_fraction_partial",
    "C82_fraction_refuted",
    "C82_strict_partial",
    "C82_strict_note_refuted",
    "C82_stay",
    "C82_strict_start",
    "C82_slew",
    "C82_slew_order",
    "C82_modulo"
   ],
   "note": "Sequences, band turns, staying in the band, slews and map cycles proved as stated. Refuted: BalanceVisits ties surveys with none and one visit so one can be two ahead (proved within one of that), a first visit gives the group no boost, a note that starts another note may never get a turn; BandDist can rise with the fraction (proved at equal totals); StrictBand frees a band after a note containing the text only when visits come in an array, alone the note has to be equal (proved for arrays)."
  },
  {
   "property": "C83",
   "status": "partial",
   "theorems": [
    "C83_moon_partial",
    "C83_moon_never_too_much",
    "C83_moon_refuted",
    "C83_elongation_partial",
    "C83_elongation_kept",
    "C83_elongation_refuted",
    "C83_elong_partial",
    "C83_elong_never_too_much",
    "C83_ha_partial",
    "C83_ha_refuted",
    "C83_ha_complement",
    "C83_rising",
    "C83_seeing",
    "C83_wind",
    "C83_no_wind",
    "C83_cloud_partial",
    "C83_map_cloud",
    "C83_cloud_refuted",
    "C83_nes_refuted",
    "C83_near_sun_partial",
    "C83_shadow_time",
    "C83_az_partial",
    "C83_az_north_refuted",
    "C83_dec",
    "C83_dec_out_refuted",
    "C83_azimuth_refuted"
   ],
   "note": "Seeing, wind, rising, near-sunrise shadow and declination cycles proved as stated; moon, elongation, azimuth and near-sun proved when no pixel of the map is within a part in a billion of the limit (and for any map: nothing inside the limits is ever masked). Refuted otherwise: one pixel at the limit rounds the whole map to integers; HaMask with a negative lower limit masks or keeps the wrong pixels (proved for limits within 0 to 24 hours); azimuth ranges through north put the whole sky out of bounds; DecModulo ignores out_of_bounds_val; Azimuth rewards distance; MaskAllButNES masks nothing; BulkCloud ignores maxima above one and masks at equality."
  },
  {
   "property": "C84",
   "status": "partial",
   "theorems": [
    "C84_line",
    "C84_season",
    "C84_slopes",
    "C84_slopes_step",
    "C84_cycles",
    "C84_share",
    "C84_slices",
    "C84_rolling_partial",
    "C84_cycle_end",
    "C84_years_refuted",
    "C84_edge_refuted",
    "C84_loaded",
    "C84_loaded_first_refuted"
   ],
   "note": "Growth, seasons, slices, shares and cycle sums proved as stated (StepSlopes: proved to fail with IndexError exactly from the last season of the list on). Agreement with a footprint that does not roll and with the goal maps proved off the two edges at 90 degrees from the sun and up to two years before the list of steps ends; refuted on an edge (counted twice) and for the full number of years. PerFilterStep proved to go from 0 to 1, refuted inside a footprint for bands loaded on the first night."
  },
  {
   "property": "C85",
   "status": "partial",
   "theorems": [
    "C85_calls_partial",
    "C85_share",
    "C85_sum_calls_partial",
    "C85_norm_refuted",
    "C85_changed_refuted",
    "C85_again_refuted",
    "C85_part_refuted",
    "C85_estimate",
    "C85_reward",
    "C85_balance",
    "C85_pick",
    "C85_followed",
    "C85_constant_refuted"
   ],
   "note": "Answers by date proved for one setting of norm, maps not changed in between, dates that can be answered and parts not asked by themselves; each of these conditions shown to be needed by a refutation. Balance of rewards, the bound for the best pixel and the bounds along a run proved for shares that add up to one and are fixed; refuted for ConstantFootprint, which does not norm its maps. Counts with a limit on seeing and maps with NaN are not modelled."
  },
  {
   "property": "C86",
   "status": "partial",
   "theorems": [
    "C86_repeat_partial",
    "C86_repeat_run",
    "C86_repeat_tie_refuted",
    "C86_repeat_spill_refuted",
    "C86_enhance_partial",
    "C86_enhance_gap",
    "C86_enhance_unseen_refuted",
    "C86_enhance_nside_refuted",
    "C86_trapezoid",
    "C86_smooth"
   ],
   "note": "Repeat reward proved when no gap between two of the times is almost exactly a limit, with the bound along runs; on a tie refuted (a gap of exactly the minimum is rewarded but is no pair; one tie lets all recent pixels through). Cadence windows proved when every pixel of the area has been visited in the bands and off ties; otherwise refuted: the call raises ValueError, also at the start of every survey, and IndexError for an nside above the default. Trapezoid proved as stated for its function."
  },
  {
   "property": "C87",
   "status": "partial",
   "theorems": [
    "C87_year_partial",
    "C87_year_run",
    "C87_year_spill_refuted",
    "C87_good_partial",
    "C87_good_run",
    "C87_good_depth_refuted"
   ],
   "note": "Yearly reward and bound along runs proved with no pixel almost exactly on the edge of its season; on such a tie refuted (pixels past their season are rewarded, above 1). Good-seeing reward and bound along runs proved with good as the feature takes it, off ties in seeing and for finite maps; refuted for depth: the feature subtracts depth from the brightness of the dark sky, so visits far short of the best depth use up the season. SeasonCoverage cannot be called at all (finding)."
  },
  {
   "property": "C88",
   "status": "partial",
   "theorems": [
    "C88_seeing_partial",
    "C88_seeing_repeats",
    "C88_seeing_wraps",
    "C88_seeing_refuted",
    "C88_cloud_partial",
    "C88_cloud_repeats",
    "C88_cloud_wraps",
    "C88_cloud_refuted",
    "C88_closest",
    "C88_frames_partial",
    "C88_late_frame_refuted",
    "C88_stuck"
   ],
   "note": "Nearest value proved for both records at every moment past the first date (clouds up to the rounding by the scale, records of a year or more) with their periods; at the first date, and before it for clouds, refuted: the value of the LAST date is returned (proved for all records). Nearest map proved for any frames kept; the most recent frames are kept proved for frames in order of time; refuted for late frames, which are dropped by arrival, and once the two oldest are out of order every call raises."
  },
  {
   "property": "C89",
   "status": "partial",
   "theorems": [
    "C89_generated",
    "C89_chances",
    "C89_status",
    "C89_status_made",
    "C89_year1",
    "C89_year1_all",
    "C89_year1_status_refuted",
    "C89_model_partial",
    "C89_model_raises",
    "C89_model_refuted"
   ],
   "note": "Generation, chances, spacing, total and status proved for all draws; first-year downtimes within their nights, in order and apart proved. With both kinds joined the status is refuted (downtimes overlap, the ends are out of order, bisection misses the one in force). DowntimeModel proved while a scheduled downtime is still to come; after the last one every call raises IndexError (proved for all tables)."
  },
  {
   "property": "C90",
   "status": "partial",
   "theorems": [
    "C90_lookup_partial",
    "C90_before_first",
    "C90_lookup_refuted",
    "C90_number_partial",
    "C90_start_night_refuted",
    "C90_one_number",
    "C90_split_refuted",
    "C90_agree_partial",
    "C90_evening_partial",
    "C90_evening_east",
    "C90_evening_refuted"
   ],
   "note": "Lookup and numbering proved from the first sunset on; before it the last row is returned (proved for all tables, refutes the claim). A start at night is in night 0, not 1 (refuted). The observatory number is one through a night exactly when no whole day from the start falls in it (iff proved, refuted for a start at night); with a start by day and one sunset a day it is the almanac number less one. Date lookup proved for machines at or west of UTC; east of it the night before is returned (proved, refutes the claim)."
  },
  {
   "property": "C91",
   "status": "proved",
   "theorems": [
    "C91_seeing_law",
    "C91_seeing_worse",
    "C91_wavelength",
    "C91_array",
    "C91_bands",
    "C91_depth_better",
    "C91_reference",
    "C91_exposures",
    "C91_time",
    "C91_split",
    "C91_scale_agrees",
    "C91_scale_default_differs",
    "C91_reward",
    "C91_visit",
    "C91_airmass"
   ],
   "note": "Over exact reals for positive airmass, seeing and exposure time; the dark sky map and the altitude (spherical law) are parameters of the reward theorem."
  },
  {
   "property": "C92",
   "status": "partial",
   "theorems": [
    "C92_notes",
    "C92_count",
    "C92_last_partial",
    "C92_batch",
    "C92_sequence_partial",
    "C92_best",
    "C92_limits_partial",
    "C92_gap_partial",
    "C92_live",
    "C92_ha_partial",
    "C92_balance_flat",
    "C92_balance_once",
    "C92_boost",
    "C92_sun",
    "C92_feasible",
    "C92_sun_refuted",
    "C92_gap_stale_refuted",
    "C92_gap_rounding_refuted",
    "C92_last_refuted",
    "C92_balance_refuted",
    "C92_sequence_refuted",
    "C92_ha_refuted"
   ],
   "note": "Proved: notes, counts, order independence of batches, the best total, no target within its limits masked, boost of a sequence. Guarded: last time for visits reported in time order, limits and gap away from the IntRounded tolerance and for a time not asked before, hour angle limits on both sides of the meridian, sequences for reports other than arrays of one visit. Refuted: the gap (reward kept for a time already asked, rounding, late reports), balance (C92_balance_refuted: favours the only target visited, otherwise no effect), sequences through the scheduler, hour angle limits on one side, the sun limit."
  },
  {
   "property": "C93",
   "status": "partial",
   "theorems": [
    "C93_pairs",
    "C93_script",
    "C93_new_night",
    "C93_others",
    "C93_window_partial",
    "C93_done",
    "C93_gap",
    "C93_offer",
    "C93_unasked",
    "C93_site",
    "C93_index",
    "C93_zenith",
    "C93_restart_refuted",
    "C93_night_end_refuted",
    "C93_negative_refuted"
   ],
   "note": "Proved: the content of the script for every history (C93_script, C93_pairs), reported follow-ups are done (C93_done), emptied by a new night, other visits leave it, the gap range, offer and reward (C93_offer), when the wait for the zenith ends (C93_zenith), refused reports. Guarded: the window of an offer, for a time not asked before. Refuted: restart, night end, negative nights; a site or an early generate_observations raises AttributeError (C93_site, C93_unasked)."
  },
  {
   "property": "C94",
   "status": "partial",
   "theorems": [
    "C94_angle_inside",
    "C94_angle_outside",
    "C94_interp_partial",
    "C94_reload",
    "C94_history_partial",
    "C94_gap",
    "C94_edge",
    "C94_answers",
    "C94_fill_partial",
    "C94_file",
    "C94_history_refuted",
    "C94_mask_refuted",
    "C94_fill_refuted",
    "C94_failed_refuted"
   ],
   "note": "Proved: angles (C94_angle_inside, C94_angle_outside), maps over a gap (C94_gap), which file and time a reload takes (C94_file), what it holds (C94_reload), no failed assertion in the loaded range with gaps under 3/4 day (C94_answers), the value past the last loaded map (C94_edge). Guarded: interpolation and independence of the history when both maps are in the loaded chunk (C94_interp_partial, C94_history_partial); filling when all pixels listed before are masked (C94_fill_partial). Refuted: independence of the history at the end of a chunk, the mask value between maps, filling after an unmasked pixel, questions after a failed one."
  },
  {
   "property": "C95",
   "status": "partial",
   "theorems": [
    "C95_match",
    "C95_match_dup",
    "C95_single",
    "C95_clear",
    "C95_notearly_partial",
    "C95_nearest_refuted",
    "C95_jump_refuted",
    "C95_safe",
    "C95_best",
    "C95_nights",
    "C95_total_partial",
    "C95_count_partial",
    "C95_season_refuted",
    "C95_accordion_refuted",
    "C95_short_refuted"
   ],
   "note": "Proved: number, places and errors of match_cumulative with and without duplicates (C95_match, C95_match_dup), the element for a single rise (C95_single), all elements when none is masked (C95_clear), safe times (C95_safe), the deepest time (C95_best), nights in order and in the season (C95_nights). Guarded: never ahead of the curve when enough free elements follow (C95_notearly_partial); no error and the number of sequences with only_season and no boost, for a curve growing by less than one a night (C95_total_partial, C95_count_partial). Refuted: nearest element, units lost in jumps and on the first element, the off season, low seasons longer than the off season and early and late nights, a season of one night. Several seasons at once have no proved total."
  },
  {
   "property": "C96",
   "status": "partial",
   "theorems": [
    "C96_visits",
    "C96_dark",
    "C96_apart",
    "C96_sequences",
    "C96_answers",
    "C96_double_refuted",
    "C96_clash_refuted"
   ],
   "note": "Proved: visits of every row, time and band (C96_visits), limits through the sequence (C96_dark), even and odd rows apart (C96_apart), no more sequences than configured and no error for a row with a season (C96_sequences), answers and the error with no times (C96_answers). Refuted: moon limit and number for the double field (C96_double_refuted), rows of a field at the same time (C96_clash_refuted), and the empty answer (it raises, C96_answers)."
  },
  {
   "property": "C97",
   "status": "partial",
   "theorems": [
    "C97_first",
    "C97_same",
    "C97_total",
    "C97_cover",
    "C97_decmax_refuted",
    "C97_dustfile_refuted",
    "C97_cutoff",
    "C97_dust",
    "C97_visits",
    "C97_labels",
    "C97_ratios",
    "C97_allsky",
    "C97_allsky_refuted"
   ],
   "note": "Proved: the first region and its weights for the four generators, the bulge with its taper in plain geometry (C97_first, for nonnegative widths), same label same weights (C97_same), when maps come back (C97_total), no holes (C97_cover), what the dust cut keeps (C97_dust), a higher cutoff takes less area (C97_cutoff), visits in total, per pixel, band and label (C97_visits, C97_labels, for weights not all 0), band ratios (C97_ratios), the masked sky away from ties (C97_allsky). Refuted: gal_dec_max has no effect (C97_decmax_refuted); a named dust map file raises (C97_dustfile_refuted); a map without a pixel in the clouds raises (C97_total); one pixel exactly at the elevation limit unmasks sky that never rises (C97_allsky_refuted)."
  },
  {
   "property": "C98",
   "status": "partial",
   "theorems": [
    "C98_position",
    "C98_direction",
    "C98_round",
    "C98_round_refuted",
    "C98_separation",
    "C98_metric",
    "C98_degrees",
    "C98_arrays",
    "C98_numbers",
    "C98_cone",
    "C98_cone_degrees",
    "C98_cone_refuted",
    "C98_rotations",
    "C98_axes",
    "C98_turn",
    "C98_matrix",
    "C98_matrix_refuted",
    "C98_tolerance_refuted",
    "C98_refused",
    "C98_arcsec",
    "C98_arcsec_turn"
   ],
   "note": "Proved: C98_position, C98_direction, C98_round (ra up to whole turns), C98_separation, C98_metric (with the triangle inequality), C98_degrees, C98_arrays, C98_numbers, C98_cone and C98_cone_degrees (radius up to half a turn), C98_rotations, C98_axes, C98_turn, C98_matrix (unit vectors not on one line), C98_refused, C98_arcsec. Refuted: an ra above pi comes back negative (C98_round_refuted); a radius beyond half a turn finds too little (C98_cone_refuted); equal or opposite vectors give a matrix of nans (C98_matrix_refuted), and so can vectors within the tolerance on length (C98_tolerance_refuted)."
  },
  {
   "property": "C99",
   "status": "partial",
   "theorems": [
    "C99_bearing",
    "C99_dest",
    "C99_there",
    "C99_pole_refuted",
    "C99_tosky",
    "C99_offset",
    "C99_toxy",
    "C99_far_refuted",
    "C99_arc",
    "C99_arc_refuted"
   ],
   "note": "Proved: C99_bearing, C99_dest and C99_there (start not at a pole), C99_tosky, C99_offset, C99_toxy (within 90 degrees of the centre), C99_arc (third point within 90 degrees of the first, or the angle at the first not obtuse; first two points not opposite). Refuted: from a pole every bearing leads to one point (C99_pole_refuted); a point on the far side projects as its opposite (C99_far_refuted); an arc whose far end is nearer is missed when the third point is more than 90 degrees from the first (C99_arc_refuted)."
  },
  {
   "property": "C100",
   "status": "partial",
   "theorems": [
    "C100_lmst",
    "C100_lmst_range",
    "C100_lmst_refuted",
    "C100_day",
    "C100_wrap",
    "C100_wrap_refuted",
    "C100_altitude",
    "C100_altaz",
    "C100_az_refuted",
    "C100_from_zenith",
    "C100_radec",
    "C100_ra",
    "C100_ra_refuted",
    "C100_sky_round",
    "C100_round",
    "C100_pa",
    "C100_pa_agree"
   ],
   "note": "Proved: C100_lmst, C100_lmst_range (longitudes from -2 pi to 0), C100_day, C100_wrap (above -pi), C100_altitude (everywhere), C100_altaz and C100_from_zenith (site not at a pole, target not at the zenith or nadir; azimuth in [0, 2 pi]), C100_radec, C100_ra (in [0, 2 pi] for sidereal times up to 36 hours), C100_sky_round, C100_round, C100_pa, C100_pa_agree. Refuted: sidereal times of 24 and more east of Greenwich (C100_lmst_refuted); hour angles below -pi are left (C100_wrap_refuted); an azimuth of exactly 2 pi (C100_az_refuted); an ra of exactly 2 pi, and beyond for longitudes up to a turn east (C100_ra_refuted)."
  },
  {
   "property": "C101",
   "status": "partial",
   "theorems": [
    "C101_level",
    "C101_trixel",
    "C101_invalid",
    "C101_children",
    "C101_cover",
    "C101_apart",
    "C101_all",
    "C101_find",
    "C101_find_refuted",
    "C101_array",
    "C101_same",
    "C101_edge_refuted"
   ],
   "note": "Proved: C101_level, C101_trixel, C101_invalid, C101_children, C101_cover, C101_apart, C101_all, C101_find (levels from 2), C101_array (any cache, levels from 2), C101_same (a position strictly inside). Refuted: at level 1 the search for one position never ends (C101_find_refuted); a position on an edge has one id alone and another in an array (C101_edge_refuted)."
  },
  {
   "property": "C102",
   "status": "partial",
   "theorems": [
    "C102_point",
    "C102_outside",
    "C102_full",
    "C102_partial",
    "C102_find",
    "C102_full_refuted",
    "C102_find_refuted",
    "C102_level_refuted",
    "C102_outside_refuted",
    "C102_edge",
    "C102_edge_refuted"
   ],
   "note": "Proved: C102_point; C102_outside, C102_partial and the completeness of C102_find for any cap from level 2; C102_full and the soundness of C102_find for caps of at most a hemisphere; C102_edge save where the plane cuts the first corner at minus d. Refuted: a wider cap whose hole lies inside a trixel calls it full (C102_full_refuted) and lists trixels in the hole (C102_find_refuted); a level 1 trixel reached by the cap is called outside (C102_outside_refuted); the search at level 1 lists level 2 ids (C102_level_refuted); an edge that starts on the circle is not seen (C102_edge_refuted)."
  },
  {
   "property": "C103",
   "status": "partial",
   "theorems": [
    "C103_merge",
    "C103_one",
    "C103_merge_same",
    "C103_merge_fixed",
    "C103_join",
    "C103_join_refuted"
   ],
   "note": "Proved: C103_merge, C103_one, C103_merge_same, C103_merge_fixed, and C103_join for sets that are not empty. Refuted: joining with an empty set, such as an empty answer of join itself, raises IndexError (C103_join_refuted)."
  },
  {
   "property": "C104",
   "status": "partial",
   "theorems": [
    "C104_field",
    "C104_field_refuted",
    "C104_search",
    "C104_search_only",
    "C104_points",
    "C104_third_refuted",
    "C104_meet",
    "C104_parallel",
    "C104_touch"
   ],
   "note": "Proved: C104_field and C104_search for radii from 0 to 180, C104_search_only to 90; C104_points; C104_meet (both circles exactly, save planes within 1e-20 of parallel, and points within 1e-20 given as one); C104_parallel. Refuted: a radius beyond 180 (C104_field_refuted); a third point on the great circle is not contained (C104_third_refuted). Touching circles give a bare point (C104_touch)."
  },
  {
   "property": "C105",
   "status": "partial",
   "theorems": [
    "C105_bins",
    "C105_order_refuted",
    "C105_short",
    "C105_healbin",
    "C105_cells",
    "C105_moc",
    "C105_moc_plain",
    "C105_moc_refuted",
    "C105_fill_refuted",
    "C105_nearest",
    "C105_match",
    "C105_match_refuted"
   ],
   "note": "Proved: C105_bins, C105_short, C105_healbin, C105_cells, C105_moc (fill 0), C105_moc_plain, C105_nearest, C105_match. Refuted: a statistic that looks at order depends on the sort (C105_order_refuted); cells coarser than the map leave pixels empty, so a uniform density does not come back (C105_moc_refuted); a pixel whose sum equals fill_val is not divided by its area (C105_fill_refuted); match_hp_resolution alters its input in place at its own resolution (C105_match_refuted). healpy geometry is a parameter."
  },
  {
   "property": "C106",
   "status": "partial",
   "theorems": [
    "C106_calls",
    "C106_first_refuted",
    "C106_exact",
    "C106_margin",
    "C106_round_refuted",
    "C106_grows",
    "C106_wide_refuted",
    "C106_empty_refuted",
    "C106_index"
   ],
   "note": "Proved: C106_calls (calls after a good first one), C106_exact, C106_margin (size + 3/k at most 60 degrees), C106_grows (sizes to pi), C106_index. Refuted: after a first call with an nside healpy refuses every later call raises AttributeError (C106_first_refuted); rounding misses a pixel within grow_size (C106_round_refuted); a size of a full turn adds nothing (C106_wide_refuted); an empty mask raises ValueError (C106_empty_refuted). healpy geometry is a parameter."
  },
  {
   "property": "C107",
   "status": "proved",
   "theorems": [
    "C107_one",
    "C107_many"
   ],
   "note": "C107_one and C107_many. The margin 3/k and the guard on the radius are part of the statement. healpy geometry is a parameter."
  },
  {
   "property": "C108",
   "status": "proved",
   "theorems": [
    "C108_square"
   ],
   "note": "C108_square. The margins and guards are part of the statement; the path containment test is a parameter that tells the inside of a convex polygon. The case of no pixel within the outer circle is left out of the model (stated in Fov.v)."
  },
  {
   "property": "C109",
   "status": "partial",
   "theorems": [
    "C109_objects",
    "C109_close",
    "C109_units",
    "C109_far_refuted"
   ],
   "note": "Proved: C109_objects, C109_units, and C109_close for objects on the near side of the sky. Refuted: an object opposite to the pointing projects on the middle of the camera and is given (C109_far_refuted). The footprint file is a parameter."
  },
  {
   "property": "C110",
   "status": "partial",
   "theorems": [
    "C110_sphere",
    "C110_pole",
    "C110_patch",
    "C110_seed",
    "C110_shared_refuted",
    "C110_wrap_refuted"
   ],
   "note": "Proved: C110_sphere, C110_pole, C110_patch (right ascension as the patch, one turn added only below 0), C110_seed. Refuted: a patch across 360 gives right ascensions of 360 and more (C110_wrap_refuted); the generator numpy shares is seeded again, also where the patch is refused (C110_shared_refuted). The generator is a parameter."
  },
  {
   "property": "C111",
   "status": "partial",
   "theorems": [
    "C111_cover",
    "C111_half",
    "C111_mirror",
    "C111_gap_refuted",
    "C111_twice_refuted",
    "C111_none"
   ],
   "note": "Proved: C111_cover, C111_half, C111_mirror, C111_none. Refuted: stripes are further apart than the step, so with no overlap positions lie more than half a side from every field (C111_gap_refuted, for every side below 90 degrees); the first and last field of a stripe are the same (C111_twice_refuted). numpy's quotient by cos(pi/2) is a parameter."
  },
  {
   "property": "C112",
   "status": "partial",
   "theorems": [
    "C112_converges",
    "C112_star",
    "C112_single",
    "C112_quiet_refuted",
    "C112_names_refuted",
    "C112_alone_refuted",
    "C112_words_refuted",
    "C112_steps"
   ],
   "note": "Proved: C112_converges, C112_star, C112_single, C112_steps. Refuted: with one night a failure is never warned of (C112_single, C112_quiet_refuted); of several nights one that did converge is named (C112_names_refuted); a night's time depends on the others (C112_alone_refuted); 'evening' means the same as 'morning' (C112_words_refuted). astropy is a parameter; nan is not modelled."
  },
  {
   "property": "C113",
   "status": "partial",
   "theorems": [
    "C113_window",
    "C113_dayobs",
    "C113_query",
    "C113_endless_refuted",
    "C113_airmass",
    "C113_altitude",
    "C113_azimuth_refuted",
    "C113_midpoint",
    "C113_id",
    "C113_id_refuted",
    "C113_night",
    "C113_night_refuted",
    "C113_slew",
    "C113_order_refuted",
    "C113_sky",
    "C113_latiss_refuted"
   ],
   "note": "Proved: C113_window, C113_dayobs, C113_query, C113_airmass, C113_altitude, C113_midpoint, C113_id (fewer than 10000 a day), C113_night (all visits of the survey), C113_slew (row above), C113_sky. Refuted: a reply that is neither 200 nor an error is asked for without end (C113_endless_refuted); azimuth across north is given as south (C113_azimuth_refuted); identifiers collide from 10000 visits a day and within a second (C113_id_refuted); night depends on the others loaded (C113_night_refuted); rows have no order in time (C113_order_refuted); LATISS tests one column and reads another (C113_latiss_refuted). Time scales and leap seconds are not modelled; calendar from MJD 0 on."
  },
  {
   "property": "C114",
   "status": "partial",
   "theorems": [
    "C114_factorial",
    "C114_value",
    "C114_orders",
    "C114_one",
    "C114_orthogonal",
    "C114_xy",
    "C114_arrays",
    "C114_edge_refuted",
    "C114_outside_refuted",
    "C114_sign_refuted"
   ],
   "note": "Proved: C114_factorial, C114_value (numbers), C114_orders, C114_one, C114_orthogonal (all orders), C114_xy, C114_arrays (r in [0, 1)). Refuted: an array has nan at r = 1 (C114_edge_refuted); with n - m odd the value outside is 0 (C114_outside_refuted); for negative m the sign is opposite to the definition cited (C114_sign_refuted). Integrals are differences of antiderivatives, one after the other; exp of -1e10 times a power is taken as 0."
  },
  {
   "property": "C115",
   "status": "partial",
   "theorems": [
    "C115_passages",
    "C115_last_refuted",
    "C115_exact_refuted",
    "C115_nights",
    "C115_entries",
    "C115_missing_refuted",
    "C115_sunrise"
   ],
   "note": "Proved: C115_passages (all but the last, exactly), C115_nights, C115_entries, C115_sunrise (no altitude exactly 0 on the grid; mjd_start after some sunset given). Refuted: the last passage is always left out, also inside the grid (C115_last_refuted); a passage with the goal exactly at a grid time is not seen (C115_exact_refuted); a night without a moonrise has it at MJD 0 (C115_missing_refuted). The refinement of the rough times with astropy is not modelled."
  },
  {
   "property": "C116",
   "status": "partial",
   "theorems": [
    "C116_tolist",
    "C116_roundtrip",
    "C116_join",
    "C116_empty_refuted",
    "C116_mixed",
    "C116_convert",
    "C116_filter_refuted",
    "C116_backfill",
    "C116_again",
    "C116_order_refuted"
   ],
   "note": "Proved: C116_tolist, C116_roundtrip (arrays with rows), C116_join, C116_mixed, C116_convert (filter names of at most 10 characters), C116_backfill, C116_again. Refuted: an empty array does not come back from its list (C116_empty_refuted); filter names over 10 characters are cut by conversion though the scheduled array holds 40 (C116_filter_refuted); the band of a scheduled array holds one letter, so filling before and after conversion differ (C116_order_refuted)."
  },
  {
   "property": "C117",
   "status": "partial",
   "theorems": [
    "C117_safety",
    "C117_short",
    "C117_short_refuted",
    "C117_greedy",
    "C117_greedy_refuted",
    "C117_nside_refuted",
    "C117_blob_nside_refuted",
    "C117_max_alt",
    "C117_max_alt_refuted",
    "C117_weights",
    "C117_bands",
    "C117_template_bands",
    "C117_names",
    "C117_reasons",
    "C117_reason_refuted",
    "C117_once",
    "C117_time",
    "C117_twilight_refuted",
    "C117_near_sun_refuted",
    "C117_detailers",
    "C117_u_refuted"
   ],
   "note": "Proved: C117_safety (templates, long gaps, blobs, near sun; the dictionary, if given, must name the nside), C117_short (when no more shadow is asked than needed), C117_greedy (no dictionary), C117_max_alt, C117_weights, C117_bands, C117_template_bands, C117_names (bands of one letter), C117_reasons, C117_once, C117_time (when the padding covers the change of band), C117_detailers. Refuted: greedy surveys ignore the dictionary (C117_greedy_refuted), short blobs a larger shadow (C117_short_refuted), masks without nside are of 32 (C117_nside_refuted), blobs are of 32 (C117_blob_nside_refuted), blobs do not mask max_alt (C117_max_alt_refuted) and take one exposure in u (C117_u_refuted), several long pairs share a reason (C117_reason_refuted), the time before twilight leaves out the change of band (C117_twilight_refuted), time_needed is unused near the sun (C117_near_sun_refuted)."
  },
  {
   "property": "C118",
   "status": "partial",
   "theorems": [
    "C118_all_events_made",
    "C118_no_scale_no_events",
    "C118_objects_of_rows",
    "C118_wave_events",
    "C118_neutrino_events",
    "C118_sso_events",
    "C118_wave_numbers",
    "C118_sso_numbers",
    "C118_sso_nights_distinct",
    "C118_neutrino_number_refuted",
    "C118_dates_refuted",
    "C118_nothing_asked_refuted",
    "C118_served",
    "C118_served_three_days",
    "C118_followed_once",
    "C118_scripts_whole",
    "C118_names_distinct"
   ],
   "note": "Proved: C118_all_events_made (any dates in order, positive scale: the nights are always enough), C118_no_scale_no_events, C118_objects_of_rows, C118_wave_events (at the dates of O5), C118_neutrino_events, C118_sso_events, C118_wave_numbers, C118_sso_numbers, C118_sso_nights_distinct, C118_served, C118_served_three_days, C118_followed_once, C118_scripts_whole, C118_names_distinct. Refuted: the waves ignore the dates asked (C118_dates_refuted), there are 160 neutrinos whatever the length of the run (C118_neutrino_number_refuted), no kind asked is an error (C118_nothing_asked_refuted)."
  },
  {
   "property": "C119",
   "status": "partial",
   "theorems": [
    "C119_seasons",
    "C119_bands",
    "C119_kinds",
    "C119_once",
    "C119_deeper",
    "C119_euclid",
    "C119_depth",
    "C119_times",
    "C119_apart",
    "C119_moon",
    "C119_double_refuted",
    "C119_nights_refuted",
    "C119_shadow_refuted",
    "C119_stored",
    "C119_stored_refuted",
    "C119_masks"
   ],
   "note": "Proved: C119_seasons, C119_bands, C119_kinds, C119_once, C119_deeper, C119_euclid, C119_depth, C119_times (known fields, a grid of two times at least), C119_apart, C119_moon (evenly spaced grid), C119_stored (what is made depends on checksum and arguments only), C119_masks. Refuted: the double field takes four visits in u where three are asked (C119_double_refuted), the deep rows of one parity ask for 200 of at most 113 nights (C119_nights_refuted), the deep griz sequences outlast the shadow of 30 minutes (C119_shadow_refuted), the stored schedule is kept when grid, locations or almanac change (C119_stored_refuted)."
  },
  {
   "property": "C120",
   "status": "partial",
   "theorems": [
    "C120_on_season",
    "C120_off_season",
    "C120_never_both",
    "C120_whole_span",
    "C120_on_goes",
    "C120_off_goes_partial",
    "C120_resolution_refuted",
    "C120_masks_refuted",
    "C120_on_visits",
    "C120_off_visits",
    "C120_shut",
    "C120_order_refuted",
    "C120_on_shadow",
    "C120_off_shadow_refuted",
    "C120_apart",
    "C120_third_day_refuted",
    "C120_seasons_independent"
   ],
   "note": "Proved: C120_on_season, C120_off_season, C120_never_both, C120_whole_span, C120_on_goes, C120_on_visits, C120_off_visits, C120_shut, C120_on_shadow (visits up to 48 s), C120_apart, C120_seasons_independent; off season at the resolution 32 (C120_off_goes_partial). Refuted: another resolution indexes past the map (C120_resolution_refuted), the safety masks change nothing (C120_masks_refuted), the order giriz becomes g i i r z (C120_order_refuted), the off season shadow is shorter than the sequence (C120_off_shadow_refuted), three days after the start the gate is still shut (C120_third_day_refuted)."
  },
  {
   "property": "C121",
   "status": "partial",
   "theorems": [
    "C121_made",
    "C121_events_first",
    "C121_nights",
    "C121_one_kind",
    "C121_names",
    "C121_names_refuted",
    "C121_bands",
    "C121_exposures",
    "C121_shadows",
    "C121_ignore",
    "C121_ignore_events_refuted",
    "C121_start",
    "C121_ddf_start_refuted",
    "C121_start_refuted",
    "C121_asked",
    "C121_resolution",
    "C121_maps",
    "C121_resolution_refuted",
    "C121_setup",
    "C121_run",
    "C121_files_refuted",
    "C121_folder_refuted"
   ],
   "note": "Proved: C121_made, C121_events_first, C121_nights, C121_one_kind, C121_bands, C121_exposures, C121_shadows, C121_ignore, C121_start (scheduler, good-seeing images and run), C121_setup, C121_run, C121_maps (the maps of the functions of the blobs); names but for the three near-sun surveys (C121_names), resolution 32 (C121_resolution). Refuted: near-sun names (C121_names_refuted), templates count event visits (C121_ignore_events_refuted), the start asked is ignored (C121_start_refuted) and the deep fields do not move (C121_ddf_start_refuted), another resolution mixes map sizes (C121_resolution_refuted), the same file with and without events (C121_files_refuted), the folder is renamed (C121_folder_refuted)."
  },
  {
   "property": "C122",
   "status": "partial",
   "theorems": [
    "C122_masks",
    "C122_asked",
    "C122_pair",
    "C122_given",
    "C122_weights",
    "C122_repeat",
    "C122_repeat_refuted",
    "C122_loaded",
    "C122_time",
    "C122_time_refuted",
    "C122_second_visit_refuted",
    "C122_shadow_refuted",
    "C122_apart",
    "C122_shared_refuted",
    "C122_sunset",
    "C122_sunset_before_refuted",
    "C122_update",
    "C122_float_refuted",
    "C122_kinds",
    "C122_field",
    "C122_field_weights_refuted"
   ],
   "note": "Proved: C122_masks, C122_asked, C122_pair, C122_given, C122_weights, C122_kinds, C122_loaded, C122_apart (without require_time), C122_time (one band), C122_repeat (one band), C122_sunset (after the first sunset known), C122_update, C122_field. Refuted: no repeat weight with two bands (C122_repeat_refuted), time before twilight short by the change of band (C122_time_refuted), no second visit without a second band (C122_second_visit_refuted), shadow of 30 minutes (C122_shadow_refuted), shared lists grow (C122_shared_refuted), before the first sunset the last (C122_sunset_before_refuted), -12.0 refused (C122_float_refuted), masks of a field survey have weight (C122_field_weights_refuted)."
  },
  {
   "property": "C123",
   "status": "partial",
   "theorems": [
    "C123_pointing",
    "C123_times_sun_moon",
    "C123_rotator",
    "C123_comcam_rotator_refuted",
    "C123_pseudo_pa_refuted",
    "C123_unset_refuted",
    "C123_set_partial",
    "C123_made",
    "C123_needed",
    "C123_null_start",
    "C123_no_end_refuted",
    "C123_band",
    "C123_depth_partial",
    "C123_depth_is_time_refuted",
    "C123_seeing",
    "C123_instrument"
   ],
   "note": "Proved: C123_pointing, C123_times_sun_moon, C123_rotator (LSST camera and LATISS), C123_made, C123_null_start with C123_needed (exactly which columns are needed), C123_set_partial (all columns but three), C123_band, C123_depth_partial (where the database has effective times but no eff_time_m5), C123_seeing, C123_instrument. Refuted: C123_comcam_rotator_refuted (ComCam visits get the relation of the LSST camera), C123_pseudo_pa_refuted (always nan in the array), C123_unset_refuted (filter, target_id, cloud_extinction), C123_no_end_refuted (nothing without obs_end_mjd), C123_depth_is_time_refuted (seconds in the column of the depth). Taken as functions of their arguments: sidereal time, pseudo-parallactic angle, almanac, separations."
  },
  {
   "property": "C124",
   "status": "partial",
   "theorems": [
    "C124_added",
    "C124_late",
    "C124_enough",
    "C124_not_made_refuted",
    "C124_no_footprint_refuted",
    "C124_scale_needs_max_refuted",
    "C124_scale_refuted",
    "C124_per_year_refuted",
    "C124_flush_refuted",
    "C124_too_many_refuted"
   ],
   "note": "Proved: C124_added (which visits are followed by short ones, how many, what they are, and the time given to the visits), C124_late, C124_enough. Refuted: C124_not_made_refuted (the constructor always raises), C124_no_footprint_refuted and C124_scale_needs_max_refuted (defaults are errors), C124_scale_refuted (nothing is scaled: all is asked for from night 1), C124_per_year_refuted (no year is looked at), C124_flush_refuted (the short visits keep the old flush time), C124_too_many_refuted (several visits of one field in one list). Taken as functions: pixels of a field of view and the map of counts."
  },
  {
   "property": "C125",
   "status": "partial",
   "theorems": [
    "C125_calendar",
    "C125_rows",
    "C125_total_partial",
    "C125_status_partial",
    "C125_from_start_refuted",
    "C125_order_refuted",
    "C125_nested_refuted",
    "C125_overlap_refuted"
   ],
   "note": "Proved: C125_rows (starts, lengths and activities from 1 January), C125_calendar (1 January of every year), and for rows one after the other C125_total_partial (total is the number of nights lost) and C125_status_partial (downtime in progress and those to come). Refuted: C125_from_start_refuted (every downtime is early by the time since 1 January if nights are counted from the start), C125_order_refuted (table in another order: one that has not begun is given), C125_nested_refuted (one downtime within another: none found), C125_overlap_refuted (overlaps count twice)."
  },
  {
   "property": "C126",
   "status": "partial",
   "theorems": [
    "C126_fetch",
    "C126_progress",
    "C126_calls",
    "C126_failed",
    "C126_versions_only",
    "C126_versions_text",
    "C126_lost_refuted",
    "C126_range_refuted",
    "C126_stuck_refuted",
    "C126_ignored_refuted",
    "C126_status_refuted",
    "C126_back_refuted"
   ],
   "note": "Proved for servers that honour ranges and state sizes right: C126_fetch (the file is that of the server or an error leaves a beginning of it), C126_progress (one full attempt of the ten is enough), C126_calls (after any sequence of calls, well or ill ended, one that returns leaves what is expected), C126_failed, C126_versions_only (against versions.txt), C126_versions_text. Refuted: C126_lost_refuted (a failed replacement loses the directory, and all is said to be in sync), C126_range_refuted (a server without ranges: a wrong file is unpacked), C126_stuck_refuted (a whole partial file of unknown size never ends), C126_back_refuted (a failed update leaves versions.txt of before: going back does nothing), C126_ignored_refuted (the command ignores its dictionary), C126_status_refuted (status 0 for a mismatch or a dead server)."
  },
  {
   "property": "C127",
   "status": "partial",
   "theorems": [
    "C127_scalars",
    "C127_rows",
    "C127_last",
    "C127_blocked",
    "C127_labels",
    "C127_labels_refuted",
    "C127_blocked_refuted",
    "C127_altaz_refuted",
    "C127_table",
    "C127_choice",
    "C127_missing_refuted",
    "C127_none_refuted",
    "C127_surveys_df",
    "C127_stale_refuted",
    "C127_empty_list_refuted",
    "C127_changes",
    "C127_changes_refuted"
   ],
   "note": "Proved: C127_scalars, C127_rows, C127_last (the last accumulated reward is that of the survey; NaN shown as -inf), C127_blocked (sums with weights not negative), C127_labels (distinct objects, bands not numerals), C127_table, C127_choice (where every survey has basis functions), C127_surveys_df, C127_changes. Refuted: C127_labels_refuted (one object twice gets one label), C127_blocked_refuted (surveys that only look at the gates), C127_altaz_refuted (FieldAltAzSurvey: no table before the first reward, a region that does not move after), C127_missing_refuted and C127_none_refuted (surveys without basis functions are left out; with none at all keep_rewards stops the scheduler), C127_stale_refuted (a table for other conditions changes the rewards shown), C127_empty_list_refuted, C127_changes_refuted (accumulated, not of that basis function). pointings_survey.py has a table of its own (C129), and so has long_gap_survey.py (C132)."
  },
  {
   "property": "C128",
   "status": "partial",
   "theorems": [
    "C128_page",
    "C128_names",
    "C128_download",
    "C128_returns",
    "C128_calls",
    "C128_again",
    "C128_error_refuted",
    "C128_links_refuted",
    "C128_outside_refuted",
    "C128_nested_refuted",
    "C128_files",
    "C128_range",
    "C128_found",
    "C128_latest",
    "C128_served",
    "C128_name_refuted",
    "C128_width_refuted"
   ],
   "note": "Proved for plain names and a server whose answers are the page and the files: C128_page, C128_names (which links are taken), C128_download, C128_returns, C128_calls, C128_again, C128_files, C128_range, C128_found, C128_latest (whole numbers of one width), C128_served (from the page to the file of a time). Refuted: C128_error_refuted (an error page is stored as the file and stays), C128_links_refuted (href not the first attribute is missed, an a without attributes or a page without tags stops all), C128_outside_refuted (a name from / is written outside), C128_nested_refuted (no nested data directory is made), C128_name_refuted (one other .h5 file stops every model), C128_width_refuted (names sort as texts). HTMLParser is a parameter; lsst.resources is not modelled."
  },
  {
   "property": "C129",
   "status": "partial",
   "theorems": [
    "C129_rows",
    "C129_last",
    "C129_shrink",
    "C129_blocked",
    "C129_changes",
    "C129_first_refuted",
    "C129_stale_refuted",
    "C129_kept_refuted",
    "C129_weights_refuted"
   ],
   "note": "Proved when the table is asked for the conditions of the last reward: C129_rows, C129_last (against a reward computed afresh), C129_shrink, C129_blocked, C129_changes. Refuted: C129_first_refuted (before the first reward AttributeError), C129_stale_refuted (other conditions: limits at the old altitudes), C129_kept_refuted (after a report the table differs from the reward kept for that time), C129_weights_refuted (reward_changes without weights). Positions, moon, wind, slew and depth at the pointings are inputs."
  },
  {
   "property": "C130",
   "status": "partial",
   "theorems": [
    "C130_defaults",
    "C130_units",
    "C130_warned",
    "C130_equal",
    "C130_equivalence",
    "C130_explicit",
    "C130_itself_refuted",
    "C130_other_refuted",
    "C130_name_refuted"
   ],
   "note": "Proved: C130_defaults, C130_units, C130_warned, C130_equal, C130_equivalence (reflexive exactly without NaN), C130_explicit. Refuted: C130_itself_refuted (a NaN parameter: not equal to itself), C130_other_refuted (comparison with None or a number raises AttributeError), C130_name_refuted (another spelling of the name has no place). np.radians is any function equal on equal values; EarthLocation is not modelled beyond its three arguments."
  },
  {
   "property": "C131",
   "status": "partial",
   "theorems": [
    "C131_exclusive",
    "C131_order",
    "C131_contains",
    "C131_blanks",
    "C131_set",
    "C131_new",
    "C131_default",
    "C131_blank_refuted",
    "C131_shared_refuted",
    "C131_first_refuted"
   ],
   "note": "Proved: C131_order, C131_exclusive, C131_contains, C131_blanks, C131_set (for the two dictionaries different), C131_new, C131_default. Refuted: C131_blank_refuted (a key with a blank at an end is never found), C131_shared_refuted (a dictionary that is not empty is shared with the caller and other maps, an empty one is not), C131_first_refuted (the order in which the user gives the patterns has no effect). re.match of the user's patterns is any function; blanks are those of the first 256 codes."
  },
  {
   "property": "C132",
   "status": "partial",
   "theorems": [
    "C132_reward",
    "C132_feasible",
    "C132_again",
    "C132_ready_refuted"
   ],
   "note": "Proved: C132_reward, C132_feasible (exactly when the reward is above the least float, given that neither of the two surveys gives a reward while not feasible), C132_again (for a pair survey that keeps its reward). Refuted: C132_ready_refuted (the scripted survey gives its reward without asking its basis functions: shown as not feasible and observed). The copy made of the survey is exact in the model."
  },
  {
   "property": "C133",
   "status": "partial",
   "theorems": [
    "C133_place",
    "C133_visits",
    "C133_caller",
    "C133_detailer_refuted",
    "C133_shared_refuted"
   ],
   "note": "Proved: C133_place (for surveys that no later one shares an array with, with the detailer among the detailers), C133_visits, C133_caller (bands and lists of arrays). Refuted: C133_detailer_refuted (the ValueError is made but not raised: every visit without RA), C133_shared_refuted (of two surveys built from one array the first observes the place of the second; the array of the caller loses RA and dec). The time a sequence is held is given (C35); reals instead of floats."
  },
  {
   "property": "C134",
   "status": "partial",
   "theorems": [
    "C134_mask",
    "C134_shape",
    "C134_split",
    "C134_reward",
    "C134_behind_refuted",
    "C134_degrees_refuted"
   ],
   "note": "Proved: C134_mask, C134_shape, C134_split, C134_reward. Refuted: C134_behind_refuted (sky straight away from the wind has the reward of sky straight into it: the pressure is squared), C134_degrees_refuted (the degrees are used as radians; right only when the two differ by whole turns). Reals instead of floats; the azimuth of a pixel is given (C100)."
  },
  {
   "property": "C135",
   "status": "partial",
   "theorems": [
    "C135_columns",
    "C135_times",
    "C135_even",
    "C135_night",
    "C135_day",
    "C135_scheduled",
    "C135_sun_refuted",
    "C135_moon_refuted"
   ],
   "note": "Proved: C135_columns, C135_times, C135_even, C135_night, C135_day (limit of the sun below 12 radians), C135_scheduled (with C95_safe; at least two rows in the dates). Refuted: C135_sun_refuted (the sun of a row the sky model refuses is 12 radians), C135_moon_refuted (its moon is the one left from the row before). Sky model, twilights and depth of sky and airmass are inputs; floats of the step not modelled; the pixels and the file are not."
  },
  {
   "property": "C136",
   "status": "partial",
   "theorems": [
    "C136_observatory",
    "C136_bands",
    "C136_visits",
    "C136_ids",
    "C136_next_id",
    "C136_refused",
    "C136_nothing",
    "C136_parked_refuted",
    "C136_continue_refuted",
    "C136_readout_refuted",
    "C136_mounted_refuted",
    "C136_order_refuted",
    "C136_blank_refuted",
    "C136_reads"
   ],
   "note": "Proved: C136_observatory, C136_bands, C136_visits, C136_ids (any table), C136_next_id (ids of the table increase), C136_refused, C136_nothing, C136_reads (the next slew of Kinem.v reads only what the model of the telescope keeps). Refuted: C136_parked_refuted (universal: restored after park_after from the last slew of the new observatory, the next visit starts from the park position and the start band), C136_continue_refuted, C136_readout_refuted, C136_mounted_refuted (a band in use that is not mounted), C136_order_refuted (a table out of order), C136_blank_refuted. Slew times are an arbitrary function of the state; the queue and the alerts seen are not restored by the code either."
  },
  {
   "property": "C137",
   "status": "partial",
   "theorems": [
    "C137_read",
    "C137_maintel",
    "C137_auxtel",
    "C137_maps",
    "C137_main_bands",
    "C137_taken",
    "C137_further",
    "C137_fresh",
    "C137_before",
    "C137_time",
    "C137_signatures",
    "C137_all_cleared",
    "C137_extra_refuted",
    "C137_order_refuted",
    "C137_bands",
    "C137_bare",
    "C137_names_refuted"
   ],
   "note": "Proved: C137_read (each attribute set_attrs is given, when no later name replaces it), C137_maintel, C137_auxtel, C137_maps (exactly the bands given), C137_main_bands, C137_taken (right kinds are never refused), C137_further, C137_fresh (conditions not given are empty), C137_before (the state before does not matter), C137_time, C137_bands and C137_bare (names band, band_digits: same band as in the scheduler). Refuted: C137_order_refuted (whatever is given before mjd is dropped), C137_extra_refuted (attributes that are no conditions survive a change of mjd), C137_names_refuted (g6: band g for the scheduler, g6 for the conditions). The attribute kwargs that the two functions set on the object is not modelled; values are opaque but for filters and maps."
  },
  {
   "property": "C138",
   "status": "partial",
   "theorems": [
    "C138_legs",
    "C138_stretch",
    "C138_opposite_refuted",
    "C138_mean",
    "C138_mean_turn",
    "C138_mean_arc",
    "C138_every",
    "C138_turn",
    "C138_wrap",
    "C138_middle",
    "C138_matrix",
    "C138_spread_refuted"
   ],
   "note": "Proved: C138_every, C138_legs and C138_matrix (within r of the centre, a separation s becomes a distance between 2 sin(s/2) and that times stretch r), C138_stretch, C138_middle, C138_mean, C138_mean_turn, C138_mean_arc (azimuths within d < pi/2 of a: so is the mean), C138_turn and C138_wrap (same order). Those on turning need a mean of radius above the cutoff. Refuted for positions all around: C138_opposite_refuted (opposite positions are one town), C138_spread_refuted (two fields half a turn apart: one town, or refused)."
  },
  {
   "property": "C139",
   "status": "partial",
   "theorems": [
    "C139_turn",
    "C139_rigid",
    "C139_hand",
    "C139_cover",
    "C139_index",
    "C139_afresh",
    "C139_too_next",
    "C139_nearest",
    "C139_pointings",
    "C139_reached",
    "C139_made",
    "C139_camera_refuted",
    "C139_pole",
    "C139_anywhere",
    "C139_rest_refuted"
   ],
   "note": "Proved: C139_turn (the rotation written out), C139_rigid, C139_hand, C139_cover, C139_index, C139_afresh, C139_too_next, C139_nearest, C139_pointings, C139_reached, C139_made, C139_pole, C139_anywhere. Refuted: C139_rest_refuted (turning by zero takes the fields half way round), C139_camera_refuted (an unknown camera ends in an AttributeError; the ValueError is made but not raised)."
  },
  {
   "property": "C140",
   "status": "partial",
   "theorems": [
    "C140_maps",
    "C140_functions",
    "C140_default",
    "C140_places",
    "C140_latest_refuted",
    "C140_rows",
    "C140_one",
    "C140_end_refuted",
    "C140_empty_refuted"
   ],
   "note": "Proved: C140_maps (the table exactly), C140_functions, C140_default, C140_places, C140_rows, C140_one. Refuted: C140_latest_refuted (TypeError before a choice and once the queue is flushed), C140_end_refuted (tier -1 shows rewards not evaluated and does not mark the choice), C140_empty_refuted (an empty tier: KeyError). Hypotheses: identities tell objects apart, a dictionary has a key once."
  },
  {
   "property": "C141",
   "status": "partial",
   "theorems": [
    "C141_transit",
    "C141_listed",
    "C141_south_refuted",
    "C141_line",
    "C141_high",
    "C141_between",
    "C141_known",
    "C141_bands",
    "C141_deeper",
    "C141_below_refuted",
    "C141_kept"
   ],
   "note": "Proved: C141_transit (the meridian altitude is the highest), C141_listed, C141_line, C141_high (from 62.5 degrees up only pixels of that meridian altitude are averaged, those towards the equator), C141_between, C141_known, C141_bands, C141_deeper, C141_kept. Refuted: C141_south_refuted (every pixel south of the zenith not at 45 degrees is put in the wrong bin), C141_below_refuted (below the horizon depths are greater than above). C141_line for latitudes not north of the equator."
  },
  {
   "property": "C142",
   "status": "partial",
   "theorems": [
    "C142_outside",
    "C142_linear",
    "C142_parabola",
    "C142_row",
    "C142_range",
    "C142_wrap",
    "C142_turn",
    "C142_arc",
    "C142_between",
    "C142_gap_refuted",
    "C142_pace_refuted",
    "C142_phase_refuted"
   ],
   "note": "Proved: C142_outside, C142_row, C142_range, C142_wrap, C142_turn (for every interpolation that weighs rows and passes through them), C142_linear and C142_parabola (these do), C142_arc and C142_between (kind linear, rows less than half a turn apart). Refuted: C142_gap_refuted (more than half a turn between rows), C142_pace_refuted (the pace is not even), C142_phase_refuted (the default kind gives negative phases). Missing: the default kind between rows of longer tables."
  },
  {
   "property": "C143",
   "status": "partial",
   "theorems": [
    "C143_perm",
    "C143_parts",
    "C143_snake",
    "C143_skip_refuted"
   ],
   "note": "Proved: C143_perm (every index once, ValueError without rows), C143_parts (for all rows: the order goes up and down over parts in which y rises, later parts have later strips), C143_snake (the parts are exactly the strips, if each strip starts below the top of the one before). Refuted without that condition: C143_skip_refuted (two columns are taken as one, and turned around together, so x goes 0, 2, 1)."
  },
  {
   "property": "C144",
   "status": "proved",
   "theorems": [
    "C144_replay",
    "C144_any_order",
    "C144_parts",
    "C144_name",
    "C144_parts_needed"
   ],
   "note": "C144_replay, C144_any_order, C144_parts, C144_name. The condition that the second table is later is needed (C144_parts_needed). Fields are integers in the order numpy gives their values; NaN is not modelled."
  },
  {
   "property": "C145",
   "status": "partial",
   "theorems": [
    "C145_own",
    "C145_shared",
    "C145_read",
    "C145_elsewhere",
    "C145_unlink",
    "C145_stale_refuted",
    "C145_dangling_refuted"
   ],
   "note": "Proved: C145_own, C145_shared, C145_read, C145_elsewhere, C145_unlink. Refuted: C145_stale_refuted (after unlink read and copy return memory with any contents and do not raise), C145_dangling_refuted (a view kept over unlink points to memory no longer mapped). Shape and dtype not modelled; writes of one element are atomic; POSIX only."
  },
  {
   "property": "C146",
   "status": "partial",
   "theorems": [
    "C146_made",
    "C146_only",
    "C146_delay",
    "C146_west",
    "C146_share",
    "C146_spaced",
    "C146_first_refuted"
   ],
   "note": "Proved: C146_made, C146_only, C146_delay, C146_west, C146_share, C146_spaced, for hour angle limits between 0 and 24 and times not below the delays. Refuted: C146_first_refuted (before the first visit the check raises ZeroDivisionError whenever the field is up on a dark moonless night). AvoidDirectWind in the list has no effect on a DeepDrillingSurvey."
  },
  {
   "property": "C147",
   "status": "proved",
   "theorems": [
    "C147_range",
    "C147_season",
    "C147_unique",
    "C147_rolls",
    "C147_first",
    "C147_turns"
   ],
   "note": "C147_range, C147_season, C147_unique, C147_rolls, C147_first, C147_turns. Angles in turns, exact arithmetic."
  },
  {
   "property": "C148",
   "status": "partial",
   "theorems": [
    "C148_all",
    "C148_stops",
    "C148_stops_dict",
    "C148_stops_other",
    "C148_resumes",
    "C148_again_refuted"
   ],
   "note": "Proved: C148_all, C148_stops, C148_resumes. Refuted: C148_again_refuted (a target that is neither dict nor list stays among the targets and is closed again by every call). Caches that are the same object and objects in two caches are not modelled."
  },
  {
   "property": "C149",
   "status": "partial",
   "theorems": [
    "C149_open",
    "C149_spaced",
    "C149_names_refuted",
    "C149_end_refuted"
   ],
   "note": "Proved: C149_open, C149_spaced. Refuted: C149_names_refuted (a field is held back by visits of any field whose name contains its own), C149_end_refuted (open at the last moment before twilight, whatever the length of the sequence). RewardRising and M5Diff never shut the survey."
  },
  {
   "property": "C150",
   "status": "partial",
   "theorems": [
    "C150_sky",
    "C150_norm",
    "C150_order",
    "C150_scale",
    "C150_floor",
    "C150_resolution",
    "C150_refused",
    "C150_mixed_refuted"
   ],
   "note": "Proved: C150_sky, C150_norm, C150_order, C150_scale, C150_floor, C150_resolution, C150_refused. Refuted: C150_mixed_refuted (maps of different resolutions are not refused; the last one counts for all). Real arithmetic, no NaN."
  },
  {
   "property": "C151",
   "status": "proved",
   "theorems": [
    "C151_limits",
    "C151_units",
    "C151_speed",
    "C151_percent",
    "C151_capped",
    "C151_share",
    "C151_default",
    "C151_degrees"
   ],
   "note": "Theorems C151_limits, C151_units, C151_speed, C151_percent, C151_capped, C151_share, C151_default, C151_degrees. Real arithmetic; percentages of zero or less (division by zero in the code) are outside the statement."
  },
  {
   "property": "C152",
   "status": "proved",
   "theorems": [
    "C152_shortest",
    "C152_any_motion",
    "C152_no_jerk",
    "C152_stop"
   ],
   "note": "Theorems C152_shortest, C152_any_motion, C152_no_jerk, C152_stop. Real arithmetic. For the duration without a jerk limit only the lower bound is stated."
  },
  {
   "property": "C153",
   "status": "partial",
   "theorems": [
    "C153_slew",
    "C153_percent",
    "C153_lax",
    "C153_lax_refuted"
   ],
   "note": "Proved: C153_slew, C153_percent, and C153_lax for the default dome and field of view. Refuted for other domes: C153_lax_refuted. Coordinate conversions are arbitrary functions; real arithmetic."
  },
  {
   "property": "C154",
   "status": "partial",
   "theorems": [
    "C154_same_band",
    "C154_first",
    "C154_not_mounted",
    "C154_band_refuted",
    "C154_rotator_refuted"
   ],
   "note": "Proved for the band in use: C154_same_band; C154_first, C154_not_mounted. Refuted for another band: C154_band_refuted (every target but the first lacks the band change, exactly), C154_rotator_refuted (ValueError). The index 0 of np.where on a single True is that of numpy before 2.1."
  },
  {
   "property": "C155",
   "status": "partial",
   "theorems": [
    "C155_ends",
    "C155_observatory",
    "C155_step_refuted",
    "C155_overhead_refuted",
    "C155_clouds_refuted",
    "C155_search",
    "C155_repeated"
   ],
   "note": "Proved when the clock is moved by at least d > 0 by each completed visit, by each skip and by step_none and the extra time after a visit is not negative: C155_ends (at most 2(end-start)/d + 3 requests); the model observatory moves it so: C155_observatory, and its search for a good time ends where clouds clear: C155_search, C155_repeated. Refuted without: C155_step_refuted (step_none = 0), C155_overhead_refuted (negative extra time), C155_clouds_refuted (no clear time on record: check_mjd searches for ever)."
  },
  {
   "property": "C156",
   "status": "proved",
   "theorems": [
    "C156_visits",
    "C156_rows",
    "C156_ends"
   ],
   "note": "C156_visits, C156_rows, C156_ends. An exception of the observatory ends the real run; such runs return no table and are left out (sk_exn)."
  },
  {
   "property": "C157",
   "status": "partial",
   "theorems": [
    "C157_same_run",
    "C157_entries",
    "C157_tables",
    "C157_keep_refuted"
   ],
   "note": "C157_same_run, C157_entries, C157_tables for stamps that do not go back and tables that are there. Refuted for a scheduler without keep_rewards: C157_keep_refuted (ValueError at the end of every run with visits). Of two fills during one request only the last is recorded; no visit refers to the first."
  },
  {
   "property": "C158",
   "status": "partial",
   "theorems": [
    "C158_exposures",
    "C158_warned_partial",
    "C158_warned_refuted",
    "C158_spacing"
   ],
   "note": "C158_exposures, C158_spacing for every number of exposures; the warning for two exposures (C158_warned_partial). Refuted for more exposures: C158_warned_refuted."
  },
  {
   "property": "C159",
   "status": "partial",
   "theorems": [
    "C159_made_refuted",
    "C159_offered",
    "C159_kept",
    "C159_afresh",
    "C159_planned"
   ],
   "note": "C159_offered, C159_kept, C159_afresh, C159_planned for the methods, with a sidereal time below 24 hours and given as an array. Refuted as the code stands: the constructor always raises (C159_made_refuted)."
  },
  {
   "property": "C160",
   "status": "partial",
   "theorems": [
    "C160_used_refuted",
    "C160_angle",
    "C160_in_season",
    "C160_coverage",
    "C160_trapezoid"
   ],
   "note": "C160_angle, C160_in_season, C160_coverage, C160_trapezoid for conditions that have the attributes sunRA and season. Refuted as the code stands, which asks conditions for attributes they do not have: C160_used_refuted, for every input. Comparisons exact where the code rounds through IntRounded (C14); pixels never visited left out."
  },
  {
   "property": "C161",
   "status": "partial",
   "theorems": [
    "C161_versions",
    "C161_table",
    "C161_same",
    "C161_long_refuted",
    "C161_list_refuted",
    "C161_written",
    "C161_lost_refuted",
    "C161_line_refuted"
   ],
   "note": "C161_versions, C161_table, C161_same, C161_written with versions.txt there, names without commas, none twice, and scalar values of up to 200 characters. Refuted without versions.txt (C161_lost_refuted), with a line without a comma in it (C161_line_refuted), for lists (C161_list_refuted) and for longer values (C161_long_refuted)."
  },
  {
   "property": "C162",
   "status": "partial",
   "theorems": [
    "C162_fields",
    "C162_round",
    "C162_degrees",
    "C162_cut",
    "C162_cut_refuted",
    "C162_two_refuted"
   ],
   "note": "C162_fields, C162_round, C162_degrees for files of whole points, C162_cut for a file cut short after its second point. Refuted for a file cut within the first or second (C162_cut_refuted, C162_two_refuted)."
  }
 ]
}