{"id": "C01", "title": "Target ids are never reused", "statement": "Across any interleaving of conditions updates, requests, completed-observation reports (single or batch), ToO flushes and manual flushes, every target_id the scheduler stamps on a newly generated observation is different from every target_id it stamped before and strictly greater than every target_id reported to it as observed before.", "quantifier": "all survey behaviours (rewards, generated observations), all finite histories of scheduler calls", "why_tests_cant": "a unit test fixes one history; reuse only shows after a particular interleaving of refills, flushes and externally reported ids", "anchors": ["rubin_scheduler/scheduler/schedulers/core_scheduler.py:_fill_queue,add_observation,add_observations_array"]}
{"id": "C02", "title": "Tier priority and reward arg-max", "statement": "When the queue is refilled, the observations come from the first tier (in listing order) that has some survey whose best reward is greater than -inf, and inside that tier from the first survey attaining the largest best reward, NaN counting as no reward; if no tier qualifies the queue ends empty and nothing is generated.", "quantifier": "all numbers of tiers and surveys, all reward maps including NaN, -inf and +inf", "why_tests_cant": "the number of tiers, ties, NaNs and infinities is unbounded; tests sample a few", "anchors": ["rubin_scheduler/scheduler/schedulers/core_scheduler.py:_fill_queue"]}
{"id": "C03", "title": "A completed target is never handed out again", "statement": "Once an observation with some target_id has been reported as completed (alone or inside a batch), no later request returns an observation carrying that target_id, whatever else happens in between.", "quantifier": "all histories of calls after the report, all survey behaviours that hand back the ids they are given", "why_tests_cant": "depends on the whole history after the report: flushes, refills, ToO alerts", "anchors": ["rubin_scheduler/scheduler/schedulers/core_scheduler.py:request_observation", "rubin_scheduler/scheduler/schedulers/queue_manager.py:mark_observation_completed,add_observation,add_observations_array"]}
{"id": "C04", "title": "Requests return the earliest still-needed valid queue entry", "statement": "Without detailers or masks, a request returns the first queue entry, in queue order, that still needs observing and has not expired; whole_queue=True returns all such entries in queue order; entries that need observing are exactly those whose target_id has not been reported since they were queued.", "quantifier": "all queues, all sets of completed ids, all times", "why_tests_cant": "quantifies over all queue contents and completion orders", "anchors": ["rubin_scheduler/scheduler/schedulers/queue_manager.py:request_observation,find_valid_observations_indx"]}
{"id": "C05", "title": "Expired entries are not handed out", "statement": "A request never returns an entry whose flush_by_mjd is nonzero and smaller than the time in the current conditions.", "quantifier": "all queues and times", "why_tests_cant": "the comparison goes through a rounding helper whose failure needs a specific coincidence of two times in one queue", "anchors": ["rubin_scheduler/scheduler/schedulers/queue_manager.py:find_valid_observations_indx", "rubin_scheduler/scheduler/utils/utils.py:IntRounded"]}
{"id": "C06", "title": "The mjd argument of request_observation is honoured", "statement": "request_observation(mjd=t) decides which queue entries have expired using t.", "quantifier": "all schedulers and times", "why_tests_cant": "the argument is accepted silently; only a relational statement over all t can show whether it matters", "anchors": ["rubin_scheduler/scheduler/schedulers/core_scheduler.py:request_observation"]}
{"id": "C07", "title": "Refill after total rejection", "statement": "If every queued entry is expired or masked at request time, the scheduler drops the queue and refills within the same call; it returns None only if no tier has a reward above -inf or everything the freshly chosen survey generated is rejected as well.", "quantifier": "all queues, masks and survey behaviours", "why_tests_cant": "needs the joint behaviour of queue, mask and surveys over all states", "anchors": ["rubin_scheduler/scheduler/schedulers/core_scheduler.py:request_observation,_fill_queue"]}
{"id": "C08", "title": "A ToO alert can flush the queue at most once", "statement": "For each alert id the decision to flush is evaluated during the first conditions update in which the id appears and never again; if no alert id is new the queue is left alone; if some new alert asks for a flush the queue is empty after the update.", "quantifier": "all sequences of conditions updates and alert lists", "why_tests_cant": "an invariant over unbounded update sequences", "anchors": ["rubin_scheduler/scheduler/schedulers/core_scheduler.py:update_conditions", "rubin_scheduler/scheduler/utils/too_objects.py:TargetoO.queue_should_flush"]}
{"id": "C09", "title": "Scheduled-observation list is complete and sorted", "statement": "After a conditions update the published list of scheduled times is sorted ascending and contains exactly, with multiplicity, the scheduled times of all surveys that are not earlier than the current time.", "quantifier": "all numbers of surveys and all scheduled time arrays", "why_tests_cant": "permutation/sortedness for all arrays", "anchors": ["rubin_scheduler/scheduler/schedulers/core_scheduler.py:update_conditions"]}
{"id": "C10", "title": "Batch and one-at-a-time completion agree on the queue", "statement": "Reporting completed observations as one array leaves the same set of queue entries outstanding as reporting them one at a time in any order.", "quantifier": "all queues, all lists of completed observations", "why_tests_cant": "equivalence of two code paths over all inputs", "anchors": ["rubin_scheduler/scheduler/schedulers/queue_manager.py:add_observations_array,add_observation"]}
{"id": "C11", "title": "Batch and one-at-a-time reporting agree on queue-manager basis functions and detailers", "statement": "The basis functions and detailers held by the queue manager see the same observations whether completed observations are reported as one array or one at a time.", "quantifier": "all queues and all observation lists", "why_tests_cant": "equivalence of two code paths over all inputs, including the empty queue", "anchors": ["rubin_scheduler/scheduler/schedulers/queue_manager.py:add_observations_array,add_observation"]}
{"id": "C12", "title": "Batch reporting hands each survey every (visit, pixel) pair exactly once", "statement": "The flattened per-pixel array given to the surveys by a batch report contains, for each visit of the time-sorted batch, one row per healpixel in its footprint and no others, in visit order.", "quantifier": "all batches and all footprints (any number of pixels per visit, including none)", "why_tests_cant": "list-of-lists flattening for every shape", "anchors": ["rubin_scheduler/scheduler/schedulers/core_scheduler.py:add_observations_array"]}
{"id": "C13", "title": "Survey labels identify surveys", "statement": "Within each tier, survey_labels assigns pairwise different labels to the surveys.", "quantifier": "all lists of survey names", "why_tests_cant": "collisions need particular names", "anchors": ["rubin_scheduler/scheduler/schedulers/core_scheduler.py:survey_labels"]}
{"id": "C14", "title": "Rounded comparison agrees with exact comparison away from ties", "statement": "Comparing two arrays through IntRounded gives, at each index, the exact comparison result whenever the two values at that index differ by more than the rounding tolerance, and equality when they are identical.", "quantifier": "all pairs of arrays and all values", "why_tests_cant": "the helper takes a different path when any element is close to a tie", "anchors": ["rubin_scheduler/scheduler/utils/utils.py:IntRounded"]}
{"id": "C15", "title": "Simulation bookkeeping is exact", "statement": "sim_runner returns exactly the completed observations, in completion order, each reported to the scheduler exactly once and before the next request, whatever the interleaving of failures, empty requests and new nights.", "quantifier": "all scheduler and observatory behaviours, all run lengths", "why_tests_cant": "arbitrary interleavings of success/failure/none and array growth", "anchors": ["rubin_scheduler/scheduler/sim_runner.py:sim_runner"]}
{"id": "C16", "title": "Visit limit is respected", "statement": "sim_runner never returns more than n_visit_limit observations.", "quantifier": "all limits and all behaviours", "why_tests_cant": "the bound must hold for each limit value including 0 and for every behaviour", "anchors": ["rubin_scheduler/scheduler/sim_runner.py:sim_runner"]}
{"id": "C17", "title": "Simulation never executes an expired queue entry", "statement": "sim_runner never asks the observatory to execute a queue entry whose flush_by_mjd (nonzero) is earlier than the observatory time at the moment of the request.", "quantifier": "all queues and observatory clocks", "why_tests_cant": "needs stale conditions together with a particular queue", "anchors": ["rubin_scheduler/scheduler/sim_runner.py:sim_runner", "rubin_scheduler/scheduler/schedulers/queue_manager.py:_check_queue_mjd_only"]}
{"id": "C18", "title": "Completed visits do not overlap in time and are numbered consecutively", "statement": "For any sequence of observe calls the completed visits have consecutive IDs, each starts no earlier than the end of the previous one, and the clock never moves backwards.", "quantifier": "all sequences of observe calls, all slew/visit durations, clouds, downtimes and almanacs", "why_tests_cant": "trace property over unbounded runs", "anchors": ["rubin_scheduler/scheduler/model_observatory/model_observatory.py:observe,observation_add_data"]}
{"id": "C19", "title": "Skipped-to times are observable and strictly later", "statement": "When the observatory model rejects a time, the time it skips to is strictly later and itself has acceptable clouds, lies inside the observing part of the night and outside every downtime.", "quantifier": "all almanacs, cloud functions, sorted downtimes and times for which the search ends", "why_tests_cant": "recursive search over arbitrary tables", "anchors": ["rubin_scheduler/scheduler/model_observatory/model_observatory.py:check_mjd,check_up"]}
{"id": "C20", "title": "Downtime lookup is exact", "statement": "For sorted non-overlapping downtimes, check_up reports down exactly when the time lies in some half-open downtime interval and then returns that interval's end.", "quantifier": "all downtime tables and times", "why_tests_cant": "binary search over every table", "anchors": ["rubin_scheduler/scheduler/model_observatory/model_observatory.py:check_up"]}
{"id": "C21", "title": "Merging downtimes preserves down time", "statement": "After overlapping downtimes are merged at start-up no two overlap and a time is down exactly when it was down in the original list.", "quantifier": "all lists of downtimes", "why_tests_cant": "needs particular overlap patterns, including all downtimes merging into one", "anchors": ["rubin_scheduler/scheduler/model_observatory/model_observatory.py:__init__"]}
{"id": "C22", "title": "Slew duration is a non-negative, continuous, non-decreasing function of distance", "statement": "For positive speed, acceleration and jerk limits, jerk_time (and acc_time) assigns every non-negative distance a motion profile, the duration is non-negative and never decreases when the distance grows, also across profile boundaries.", "quantifier": "all real limits and distances", "why_tests_cant": "a real-analysis claim over a continuum with six cases", "anchors": ["rubin_scheduler/scheduler/model_observatory/jerk.py:jerk_time,acc_time"]}
{"id": "C23", "title": "Cable wrap limits hold over any observing sequence", "statement": "Starting parked, after any sequence of slews the cumulative azimuth stays inside the configured limits; a slew uses the shorter direction whenever that direction stays inside the limits.", "quantifier": "all sequences of slew targets, all limits containing the park position", "why_tests_cant": "invariant over unbounded sequences", "anchors": ["rubin_scheduler/scheduler/model_observatory/kinem_model.py:slew_times"]}
{"id": "C24", "title": "Impossible slews are refused without side effects", "statement": "A slew to an altitude outside the limits, an unmounted band, a rotator angle outside the limits or an unreachable azimuth yields no finite time and leaves position, band, tracking, cumulative azimuth and overhead unchanged.", "quantifier": "all telescope states and targets", "why_tests_cant": "frame condition over all states", "anchors": ["rubin_scheduler/scheduler/model_observatory/kinem_model.py:slew_times,observe"]}
{"id": "C25", "title": "Cumulative azimuth follows the telescope azimuth", "statement": "After any sequence of slews the cumulative azimuth equals, modulo a full turn, the azimuth the telescope points to.", "quantifier": "all sequences of slews and tracking drifts", "why_tests_cant": "drift accumulates over a sequence", "anchors": ["rubin_scheduler/scheduler/model_observatory/kinem_model.py:slew_times"]}
{"id": "C26", "title": "Open-loop optics time follows the documented slope", "statement": "A slew of d degrees in altitude adds d * ol_slope seconds of open loop correction.", "quantifier": "all altitude distances and slopes", "why_tests_cant": "unit handling for all values", "anchors": ["rubin_scheduler/scheduler/model_observatory/kinem_model.py:setup_optics,slew_times"]}
{"id": "C27", "title": "Readout and shutter overhead bound the next slew", "statement": "The slew time of the visit following a completed visit is at least the readout time, and for single-exposure visits consecutive exposures start at least shutter_2motion_min_time apart.", "quantifier": "all pairs of visits and configurations", "why_tests_cant": "inequality over all real parameters", "anchors": ["rubin_scheduler/scheduler/model_observatory/kinem_model.py:observe,shutter_stall,visit_time,slew_times"]}
{"id": "C28", "title": "Shortest signed angle", "statement": "smallest_signed_angle(a, b) is congruent to b - a modulo a full turn, lies within half a turn of zero, and no congruent angle is smaller in magnitude.", "quantifier": "all real angles", "why_tests_cant": "continuum of inputs with wrap-around", "anchors": ["rubin_scheduler/scheduler/utils/utils.py:smallest_signed_angle"]}
{"id": "C29", "title": "Scripted observations are only offered inside their window and once", "statement": "At a time not asked for before, a scripted survey offers observations made from distinct rows of its script, at most return_n_limit of them; each row is unobserved, lies inside (mjd - mjd_tol, flush_by_mjd), uses a mounted (active) band when that check is on, and satisfies its moon, sun, altitude and hour angle limits, the sky and telescope limits and the reward mask. A row meeting all this is left out only if the limit is reached or the twilight check withholds everything.", "quantifier": "all scripts, completion histories and conditions", "why_tests_cant": "quantifies over scripts and histories", "anchors": ["rubin_scheduler/scheduler/surveys/scripted_surveys.py:_check_list,generate_observations"]}
{"id": "C30", "title": "Scripted survey does not re-offer what was just completed", "statement": "After a scripted observation is reported completed, generate_observations never offers it again.", "quantifier": "all scripts, histories and times", "why_tests_cant": "a cached answer only goes stale for calls at the same time", "anchors": ["rubin_scheduler/scheduler/surveys/scripted_surveys.py:generate_observations,add_observation"]}
{"id": "C31", "title": "Scripted survey: batch and single reporting agree", "statement": "A scripted survey marks the same entries observed whether completions are reported as an array or one at a time.", "quantifier": "all scripts and observation lists", "why_tests_cant": "equivalence of two code paths over all inputs", "anchors": ["rubin_scheduler/scheduler/surveys/scripted_surveys.py:add_observations_array,add_observation"]}
{"id": "C32", "title": "Script entries get pairwise distinct notes and growing ids", "statement": "After any sequence of set_script(append=True) calls with indexing on, all entries carry pairwise distinct notes and the ids keep growing.", "quantifier": "all sequences of scripts", "why_tests_cant": "string uniqueness over unbounded sequences", "anchors": ["rubin_scheduler/scheduler/surveys/scripted_surveys.py:set_script"]}
{"id": "C33", "title": "Each alert is scripted at most once", "statement": "A ToO scripted survey adds observations for each alert id at most once over any sequence of conditions updates, and the number and times of added observations follow the configured times, visits and bands.", "quantifier": "all sequences of conditions updates, alert lists and configurations", "why_tests_cant": "invariant over unbounded sequences", "anchors": ["rubin_scheduler/scheduler/surveys/too_scripted_surveys.py:_new_event,update_conditions"]}
{"id": "C34", "title": "Deep-drilling sequence is a mounted-band selection with the loaded band first", "statement": "The generated deep drilling sequence contains exactly the sequence entries in mounted bands, those in the loaded band first, otherwise in sequence order, all carrying the same flush time.", "quantifier": "all sequences, mounted sets and loaded bands", "why_tests_cant": "for all sequences", "anchors": ["rubin_scheduler/scheduler/surveys/dd_surveys.py:generate_observations_rough"]}
{"id": "C35", "title": "Field survey duration estimate", "statement": "The approximate duration of a field survey sequence in days is its total exposure, readout and band change time in seconds divided by 86400.", "quantifier": "all sequences and overheads", "why_tests_cant": "unit handling for all values", "anchors": ["rubin_scheduler/scheduler/surveys/field_survey.py:__init__"]}
{"id": "C36", "title": "Infeasible surveys have no reward", "statement": "A survey whose feasibility check fails, or whose reward map is everywhere -inf, reports no reward above -inf and so is never selected.", "quantifier": "all surveys, basis functions and conditions", "why_tests_cant": "all combinations of basis function values", "anchors": ["rubin_scheduler/scheduler/surveys/base_survey.py:_check_feasibility,calc_reward_function", "rubin_scheduler/scheduler/surveys/field_survey.py:calc_reward_function"]}
{"id": "C37", "title": "Feature update order: batch equals incremental", "statement": "For each survey feature (counts, last observation, per-night counts, per-pixel counts, last observed times), feeding a time-ordered history as one batch or observation by observation gives the same feature value.", "quantifier": "all histories and feature configurations", "why_tests_cant": "equivalence of two code paths over all histories", "anchors": ["rubin_scheduler/scheduler/features/features.py"]}
{"id": "C38", "title": "Band scheduler picks the documented set", "statement": "For each band scheduler and every time or moon phase within its table, the returned band set is the one configured for that time, and the date based scheduler returns the latest swap not later than now.", "quantifier": "all tables, times and moon phases", "why_tests_cant": "table lookup for every table and time", "anchors": ["rubin_scheduler/scheduler/schedulers/filter_scheduler.py"]}
{"id": "C39", "title": "Route finder visits every pointing once", "statement": "The tour returned by the route optimiser visits every pointing exactly once, and the three-opt improvement never lengthens the tour it is given.", "quantifier": "all point sets, hull decompositions and distance matrices", "why_tests_cant": "permutation property for all inputs", "anchors": ["rubin_scheduler/scheduler/utils/tsp.py:merge_hulls,three_opt,tsp_convex"]}
{"id": "C40", "title": "Season numbering", "statement": "season_calc increases by one every 365.25 days at a fixed offset, is constant in between, and returns -1 exactly for out-of-range seasons.", "quantifier": "all offsets, nights and options", "why_tests_cant": "real-valued and modular arithmetic over all inputs", "anchors": ["rubin_scheduler/scheduler/utils/utils.py:season_calc"]}
{"id": "C41", "title": "Schema conversion round trip", "statement": "Converting an observation table to the database schema and back restores every mapped column.", "quantifier": "all observation values and all consistent column maps", "why_tests_cant": "round trip for all values", "anchors": ["rubin_scheduler/scheduler/utils/utils.py:SchemaConverter"]}
{"id": "C42", "title": "ToO server delivers exactly the active alerts", "statement": "SimTargetooServer returns, in order, exactly the alerts whose open interval (start, start+duration) contains the time, and None when there is none.", "quantifier": "all alert lists and times", "why_tests_cant": "for all tables and times", "anchors": ["rubin_scheduler/scheduler/utils/too_objects.py:SimTargetooServer"]}
{"id": "C43", "title": "Look-ahead wrapper stays consistent with the real scheduler", "statement": "After any interleaving of requests and reports, the ahead copy of the scheduler equals the core scheduler with all requested but unreported observations replayed, and a request returns an observation or None without failing.", "quantifier": "all interleavings of requests and reports", "why_tests_cant": "unbounded interleavings", "anchors": ["rubin_scheduler/scheduler/schedulers/summit_wrapper.py"]}
{"id": "C44", "title": "No request is made after the simulated period", "statement": "sim_runner never asks the scheduler for an observation at an observatory time later than the end of the simulated period.", "quantifier": "all scheduler and observatory behaviours that keep the clock they are given, all durations", "why_tests_cant": "A test runs a handful of configurations; the clock jumps made by failures, overheads and empty requests are unbounded.", "anchors": ["rubin_scheduler/scheduler/sim_runner.py:sim_runner"]}
{"id": "C45", "title": "Completed visits lie outside every downtime", "statement": "No part of a completed visit (from the start of the slew to the end of the exposure) lies inside a downtime.", "quantifier": "all downtime tables, slew and visit durations and start times outside downtime", "why_tests_cant": "Needs a downtime placed inside one visit; tests use a few long downtimes.", "anchors": ["rubin_scheduler/scheduler/model_observatory/model_observatory.py:observe,check_mjd"]}
{"id": "C46", "title": "Every survey sees every conditions update and every reported visit, once, in order", "statement": "Over any sequence of scheduler calls, each survey in the survey lists is shown each conditions update and each reported visit exactly once, in the order the calls were made (visits of one batch in time order), and is shown nothing by other calls.", "quantifier": "all survey lists, all survey behaviours, all sequences of scheduler calls", "why_tests_cant": "Needs all call histories; a survey left out of one path only shows up later as a wrong reward.", "anchors": ["rubin_scheduler/scheduler/schedulers/core_scheduler.py:update_conditions,add_observation,add_observations_array"]}
{"id": "C47", "title": "The band in use is always mounted", "statement": "After any sequence of slews, visits, parkings and (non-empty) band exchanges, the band the telescope reports as current and the band it starts the night with are in the mounted set.", "quantifier": "all sequences of telescope operations, targets and band sets", "why_tests_cant": "A test follows one sequence of mounts and visits; the claim is an invariant over all interleavings of band exchanges and slews.", "anchors": ["rubin_scheduler/scheduler/model_observatory/kinem_model.py:mount_bands,slew_times,park"]}
{"id": "C48", "title": "Coordinate wrapping keeps the direction", "statement": "wrap_ra_dec returns coordinates of the same direction on the sphere, and for declinations at most three quarters of a turn away from zero they lie in the usual ranges.", "quantifier": "all real coordinate pairs", "why_tests_cant": "Tests sample a few coordinates; the claim is about all reals, including those exactly on the poles and many turns away.", "anchors": ["rubin_scheduler/scheduler/utils/utils.py:wrap_ra_dec"]}
{"id": "C49", "title": "Repeating a visit costs only the readout", "statement": "After any history, observing the same visit again immediately takes exactly the larger of readout time and remaining shutter time as slew time.", "quantifier": "all histories, visits, rotator choices and configurations with at least a full turn of azimuth range", "why_tests_cant": "Tests repeat a few visits; the claim covers every telescope history, cable wrap state and configuration.", "anchors": ["rubin_scheduler/scheduler/model_observatory/kinem_model.py:slew_times,observe"]}
{"id": "C50", "title": "A slew is never faster than any of its parts", "statement": "The time of a slew is at least the overhead, the motion time of each telescope and dome axis including settling, the rotator motion, the band change time and, for large altitude moves, the altitude motion plus the closed loop delay.", "quantifier": "all states, targets, options and configurations with positive limits", "why_tests_cant": "Tests compare a handful of slews with recorded numbers; the bound has to hold for all geometries and options.", "anchors": ["rubin_scheduler/scheduler/model_observatory/kinem_model.py:slew_times,better_band_changetime"]}
{"id": "C51", "title": "Scripted rows finish before twilight", "statement": "With before_twi_check on, a scripted survey offers its eligible rows exactly when their exposures and band changes fit before -18 degree twilight.", "quantifier": "all scripts, histories and conditions", "why_tests_cant": "Tests use scripts of one band without a night end; the claim covers every mix of bands and time left.", "anchors": ["rubin_scheduler/scheduler/surveys/scripted_surveys.py:generate_observations_rough"]}
{"id": "C52", "title": "Infeasible scripted surveys offer nothing", "statement": "When a basis function of a scripted survey reports the survey infeasible, the survey has reward -inf and offers nothing (class docstring: basis functions are used for computing survey feasibility).", "quantifier": "all scripts, basis functions and conditions", "why_tests_cant": "No test gives a scripted survey an infeasible basis function together with an eligible row; the claim covers all of them.", "anchors": ["rubin_scheduler/scheduler/surveys/scripted_surveys.py:calc_reward_function,generate_observations_rough"]}
{"id": "C53", "title": "A scripted survey asks for attention exactly when it has something to offer", "statement": "After calc_reward_function, the reward is above -inf if and only if generate_observations at the same conditions returns a non-empty list, and that call changes nothing.", "quantifier": "all states, scripts and conditions", "why_tests_cant": "Two methods share caches over arbitrary histories; tests check one call of one of them.", "anchors": ["rubin_scheduler/scheduler/surveys/scripted_surveys.py:calc_reward_function,generate_observations"]}
{"id": "C54", "title": "Every followed alert is scripted", "statement": "Every alert of a followed type whose area touches the follow-up footprint gets observations scripted.", "quantifier": "all configurations and sequences of condition updates", "why_tests_cant": "Tests send one alert; the claim is about every order and timing of alerts and updates.", "anchors": ["rubin_scheduler/scheduler/surveys/too_scripted_surveys.py:_new_event,update_conditions"]}
{"id": "C55", "title": "Ignored observations are ignored alike one at a time and in a batch", "statement": "A survey's features and detailers receive a visit whose scheduler note contains none of the ignore_obs strings exactly once, and never one whose note contains one of them, whether visits are reported singly with add_observation or as a batch with add_observations_array; the rows of the healpix array are kept for exactly the same visits, and a batch in time order is passed on in time order.", "quantifier": "all lists of visits, notes and ignore strings", "why_tests_cant": "substring filtering over all notes, two code paths that must agree on every batch", "anchors": ["rubin_scheduler/scheduler/surveys/base_survey.py:add_observation,add_observations_array,check_good_note"]}
{"id": "C56", "title": "A survey with a required area offers a reward only when that area is available", "statement": "With area_required set to A square degrees, a Markov, blob or pairs survey reports a reward above -inf only if the pixels that can be observed (finite reward), within max_radius_peak of the best pixel for blob surveys, cover at least A square degrees; and it does report its reward when they do.", "quantifier": "all reward maps, areas and pixel geometries", "why_tests_cant": "unit conversion and NaN/-inf handling over all maps", "anchors": ["rubin_scheduler/scheduler/surveys/base_survey.py:_check_feasibility,calc_reward_function", "rubin_scheduler/scheduler/surveys/surveys.py:BlobSurvey.calc_reward_function,BlobPairsSurvey._check_area"]}
{"id": "C57", "title": "A block fits before the next break", "statement": "The number of visits chosen for a block is at least one, and unless it is one the block, over both passes of a pair, ends before morning twilight (twilight_scale), the next twilight boundary (in_twilight) and the first scheduled observation (check_scheduled).", "quantifier": "all survey settings and break times", "why_tests_cant": "rounding boundaries over all combinations of break times", "anchors": ["rubin_scheduler/scheduler/surveys/surveys.py:BlobSurvey._set_block_size"]}
{"id": "C58", "title": "A blob grows through neighbouring pixels, best first", "statement": "hp_grow_argsort returns each pixel at most once, starting at the first maximum of the map, every further pixel being the best observable neighbour of those before it, and the pixels returned are exactly the connected observable region around the peak; on a connected sphere it fails only when no pixel is observable.", "quantifier": "all maps and neighbour tables", "why_tests_cant": "graph property of every map, masking bookkeeping", "anchors": ["rubin_scheduler/utils/healpy_utils.py:hp_grow_argsort"]}
{"id": "C59", "title": "Greedy and simple ordering choose the best fields", "statement": "A greedy survey returns the fields of its block_size best finite pixels, each once, as many as block_size when enough fields are available; a blob survey in simple order returns at most nvisit fields whose best pixel is no worse than that of any field left out, and all of them when they fit.", "quantifier": "all maps, tessellations and block sizes", "why_tests_cant": "ties, NaN and -inf over all maps", "anchors": ["rubin_scheduler/scheduler/surveys/surveys.py:GreedySurvey.generate_observations_rough,BlobSurvey.simple_order_sort", "rubin_scheduler/scheduler/utils/utils.py:int_binned_stat"]}
{"id": "C60", "title": "Every pass of a blob covers observable fields near the peak once", "statement": "A blob survey makes n_visits passes, each with between one and nvisit_block different fields that contain an observable pixel within max_radius_peak of the peak; the passes of a pair cover the same region; the first pass is in the first band and later ones in the second, and without a second band no pair is taken.", "quantifier": "all maps, tessellations, radii and block sizes", "why_tests_cant": "interaction of masking, recomputation and growing over all maps", "anchors": ["rubin_scheduler/scheduler/surveys/surveys.py:BlobSurvey.generate_observations_rough,BlobPairsSurvey"]}
{"id": "C61", "title": "Tessellation rotations are nightly or never repeated", "statement": "With dither 'night' the tessellation in use is that of the current night whatever the call history; with 'call' no two calls use the same rotation.", "quantifier": "all sequences of calls and nights", "why_tests_cant": "state over all call histories", "anchors": ["rubin_scheduler/scheduler/surveys/base_survey.py:BaseMarkovSurvey.generate_observations_rough"]}
{"id": "C62", "title": "Fractional season of a right ascension", "statement": "calc_season is above -1 and at most 0 at the start of the survey for every right ascension, grows by one every 365.25 days, strictly increases with time, is the same for right ascensions a full turn apart, and season 0 starts within the year after the start of the survey at the time the Sun is at the right ascension.", "quantifier": "all right ascensions, times and start dates", "why_tests_cant": "floor arithmetic over all real inputs", "anchors": ["rubin_scheduler/utils/season_utils.py:calc_season"]}
{"id": "C63", "title": "Pairs in a night are counted exactly", "statement": "For visits fed in time order, one at a time or in batches from one night with increasing IDs, none of whose separations is within 1e-9 of a gap limit, and a band name that is None or one letter, PairInNight holds for each pixel the number of visits of the latest night in the band that follow an earlier visit of that night in the band to the same pixel at a gap strictly between gap_min and gap_max.", "quantifier": "all histories, pixel lists and gaps", "why_tests_cant": "slice bookkeeping of a log over unbounded histories", "anchors": ["rubin_scheduler/scheduler/features/features.py:PairInNight"]}
{"id": "C64", "title": "When an alert interrupts the queue", "statement": "An alert interrupts the queue exactly when interruption is allowed and its centre, or for an alert without a centre some pixel of its footprint with positive value, is at or above its altitude limit; evaluating it never fails when footprint and altitude map have the same number of pixels.", "quantifier": "all alerts, footprints and altitude maps", "why_tests_cant": "existential over all pixels of all maps", "anchors": ["rubin_scheduler/scheduler/utils/too_objects.py:TargetoO.queue_should_flush"]}
{"id": "C65", "title": "Conditions values belong to what was last set", "statement": "After any sequence of assignments and reads on a Conditions object, every derived value read from it (lmst, HA, alt, az, pa, airmass, m5_depth, solar_elongation, az_to_sun, az_to_antisun, wind_pressure) is the one computed from the attributes now in force, those set since the last assignment of mjd; a read fails only when an attribute it needs was never set.", "quantifier": "all sequences of assignments and reads, any maps", "why_tests_cant": "cached values go stale only for particular orders of reads and writes, of which there are unboundedly many", "anchors": ["rubin_scheduler/scheduler/features/conditions.py:Conditions", "rubin_scheduler/scheduler/model_observatory/model_observatory.py:ModelObservatory.return_conditions"]}
{"id": "C66", "title": "The shadow mask keeps exactly the pixels inside all limits", "statement": "alt_az_shadow_mask without padding leaves a pixel open exactly when, now and at each sampled time, its altitude is inside the caller's and the telescope's limits, its azimuth inside the caller's and the telescope's limits, and altitude and azimuth each inside one of the allowed sky ranges; padding only closes pixels. Sampled times lie in the window, include its end, and leave no moment a full step away. The mask is for the limits in force at the call.", "quantifier": "all skies, limits, windows, steps and call sequences", "why_tests_cant": "all positions and limit combinations over every time grid", "anchors": ["rubin_scheduler/scheduler/features/conditions.py:Conditions.alt_az_shadow_mask"]}
{"id": "C67", "title": "Reordering detailers keep every observation and start where they say", "statement": "RollBandMatchDetailer, CloseAltDetailer, BandSortDetailer and ChunkByHADetailer return the observations they are given (ChunkByHA: those above its altitude limit), each once. RollBandMatch starts in the loaded band if it can. CloseAlt starts at the nearest observation inside the altitude band. BandSort keeps the order within a band and, with loaded_first, uses the fewest band changes any order could. ChunkByHA goes west to east and starts each band at its most westerly setting observation.", "quantifier": "all observation lists, band orders and loaded bands", "why_tests_cant": "minimality is over all rearrangements of every list", "anchors": ["rubin_scheduler/scheduler/detailers/detailer.py:RollBandMatchDetailer", "rubin_scheduler/scheduler/detailers/detailer.py:CloseAltDetailer", "rubin_scheduler/scheduler/detailers/detailer.py:BandSortDetailer", "rubin_scheduler/scheduler/detailers/detailer.py:ChunkByHADetailer"]}
{"id": "C68", "title": "Lists cut to the time left fit in it", "statement": "TruncatePreTwiDetailer returns the longest prefix whose exposures, band changes and overheads end before the cut. TwilightTripleDetailer repeats the longest prefix whose n_repeat passes fit in the twilight left.", "quantifier": "all observation lists and times left", "why_tests_cant": "prefix maximality over all lists and times", "anchors": ["rubin_scheduler/scheduler/detailers/detailer.py:TruncatePreTwiDetailer", "rubin_scheduler/scheduler/detailers/detailer.py:TwilightTripleDetailer"]}
{"id": "C69", "title": "Editing detailers change exactly the columns they name", "statement": "BandSubstituteDetailer, BandPickToODetailer, TrackingInfoDetailer, FlushByDetailer, FlushForSchedDetailer, BandToFilterDetailer, RandomBandDetailer, BandNexp, StartFieldSequenceDetailer and TakeAsPairsDetailer keep every observation and every column they are not about. Substituted and random bands are mounted. TrackingInfo never overwrites information already there. FlushForSched moves every flush time before the next scheduled observation. StartFieldSequence prepends its sequence exactly when no matching visit within ang_distance_match is more recent than time_match_hours. TakeAsPairs doubles the list, loaded band first, tagged a then b.", "quantifier": "all observation lists, settings and histories of visits", "why_tests_cant": "frame conditions are about every column of every list", "anchors": ["rubin_scheduler/scheduler/detailers/detailer.py:BandSubstituteDetailer", "rubin_scheduler/scheduler/detailers/detailer.py:TrackingInfoDetailer", "rubin_scheduler/scheduler/detailers/detailer.py:FlushByDetailer", "rubin_scheduler/scheduler/detailers/detailer.py:FlushForSchedDetailer", "rubin_scheduler/scheduler/detailers/detailer.py:BandToFilterDetailer", "rubin_scheduler/scheduler/detailers/detailer.py:RandomBandDetailer", "rubin_scheduler/scheduler/detailers/detailer.py:RandomFilterDetailer", "rubin_scheduler/scheduler/detailers/detailer.py:BandNexp", "rubin_scheduler/scheduler/detailers/detailer.py:StartFieldSequenceDetailer", "rubin_scheduler/scheduler/detailers/detailer.py:TakeAsPairsDetailer", "rubin_scheduler/scheduler/detailers/event_detailers.py:BandPickToODetailer"]}
{"id": "C70", "title": "Numbered and tagged notes tell observations apart", "statement": "After IndexNoteDetailer the notes of a list are pairwise distinct; after TakeAsPairsDetailer the two visits of a pair have different notes; TagRadialDetailer changes note and target only of observations inside its radius.", "quantifier": "all lists of observations and notes", "why_tests_cant": "collisions need particular notes, indices and lengths", "anchors": ["rubin_scheduler/scheduler/detailers/detailer.py:IndexNoteDetailer", "rubin_scheduler/scheduler/detailers/detailer.py:TakeAsPairsDetailer", "rubin_scheduler/scheduler/detailers/detailer.py:TagRadialDetailer"]}
{"id": "C71", "title": "Rotator angle conversions are inverse to each other", "statement": "For each telescope, rottelpos2rotskypos and rotskypos2rottelpos satisfy that telescope's relation between rotSkyPos, rotTelPos and parallactic angle; converting there and back gives the same direction, and the same number for angles in the function's range ((-180,180] for rotTelPos, [0,360) for rotSkyPos).", "quantifier": "all telescopes, angles and parallactic angles", "why_tests_cant": "all angles, including the wrap points, for three conventions", "anchors": ["rubin_scheduler/utils/rotskypos.py:RotationConverter", "rubin_scheduler/utils/rotskypos.py:RotationConverterComCam", "rubin_scheduler/utils/rotskypos.py:RotationConverterAuxtel", "rubin_scheduler/utils/rotskypos.py:_wrap_180"]}
{"id": "C72", "title": "The model observatory only takes rotator angles it can reach", "statement": "When the model observatory resolves rotSkyPos, the observation gets a rotSkyPos whose rotTelPos is within the rotator limits: the one asked for if it already is, otherwise turned by a quarter or half turn to the allowed angle nearest the current one. It does so for every request.", "quantifier": "all requested angles, parallactic angles, rotator positions and limits", "why_tests_cant": "ties and gaps between limits occur on particular angles only", "anchors": ["rubin_scheduler/scheduler/model_observatory/model_observatory.py:_update_rot_sky_pos", "rubin_scheduler/scheduler/utils/utils.py:smallest_signed_angle"]}
{"id": "C73", "title": "Rotator detailers set reachable angles that depend on what they say", "statement": "RotspUpdateDetailer leaves usable observations alone and makes every other one usable. ParallacticRotationDetailer sets a rotSkyPos and a matching rotTelPos inside its limits. Comcam90rotDetailer picks, for each observation by itself, the right angle with rotTelPos nearest zero. CameraRotDetailer's offsets lie in [min_rot, max_rot); per night they depend on the night alone, per call the k-th call of a night always gets the same offset. CameraSmallRot keeps offsets in [min_rot, max_rot] and steps by per_visit_rot within a band.", "quantifier": "all observation lists, call sequences, nights and limits", "why_tests_cant": "state carried over call sequences, and effects of one observation on another in the same list", "anchors": ["rubin_scheduler/scheduler/detailers/detailer.py:RotspUpdateDetailer", "rubin_scheduler/scheduler/detailers/detailer.py:ParallacticRotationDetailer", "rubin_scheduler/scheduler/detailers/detailer.py:Comcam90rotDetailer", "rubin_scheduler/scheduler/detailers/dither_detailer.py:CameraRotDetailer", "rubin_scheduler/scheduler/detailers/dither_detailer.py:CameraSmallRotPerObservationListDetailer"]}
{"id": "C74", "title": "Dithers repeat through a night or advance with every visit", "statement": "DitherDetailer with per_night gives one offset a night, a function of the night alone whatever was called before, and different nights have different seeds. Without per_night the k-th visit of a night gets the k-th position of that night, however the visits are split into lists, so no position is used twice before all are used. Dithered coordinates stay in range.", "quantifier": "all histories of calls and completed visits, nights and list sizes", "why_tests_cant": "depends on the interleaving of calls and completed visits across nights", "anchors": ["rubin_scheduler/scheduler/detailers/dither_detailer.py:DitherDetailer", "rubin_scheduler/scheduler/features/features.py:NObsCount", "rubin_scheduler/utils/projections.py:gnomonic_project_tosky"]}
{"id": "C75", "title": "Dithers that split, expand or tile keep every observation in place", "statement": "SplitDetailer applies each of its detailers to exactly the observations meant for it and returns the list in order, the detailers behaving as they would alone. DeltaCoordDitherDetailer returns one observation for each input and offset, in order. ComCamGridDitherDetailer visits the 20 grid and dither places of a band in turn before repeating. EuclidDitherDetailer moves each observation to the centre its note names and refuses others.", "quantifier": "all lists, notes, offsets and band sequences", "why_tests_cant": "all lists and mixtures of notes; state of the inner detailers over a history", "anchors": ["rubin_scheduler/scheduler/detailers/dither_detailer.py:SplitDetailer", "rubin_scheduler/scheduler/detailers/dither_detailer.py:DeltaCoordDitherDetailer", "rubin_scheduler/scheduler/detailers/dither_detailer.py:ComCamGridDitherDetailer", "rubin_scheduler/scheduler/detailers/dither_detailer.py:EuclidDitherDetailer"]}
{"id": "C76", "title": "Region and deep-field labels are complete and repeatable", "statement": "After LabelRegionDetailer, LabelDDFDetailer or both, the label column of each observation names exactly the regions under it (OOF when none), the deep drilling fields near it and, when appending, whatever it named before except empty and None; labelling again adds nothing, other columns and rows are untouched, and the column is a function of the observation.", "quantifier": "all lists, labels, separators, earlier column contents and set iteration orders", "why_tests_cant": "set iteration order varies between runs; all label combinations and column contents", "anchors": ["rubin_scheduler/scheduler/detailers/detailer.py:LabelRegionDetailer", "rubin_scheduler/scheduler/detailers/detailer.py:LabelDDFDetailer", "rubin_scheduler/scheduler/detailers/detailer.py:LabelRegionsAndDDFs"]}
{"id": "C77", "title": "Variable exposure times reach the target depth within limits", "statement": "VaryExptDetailer gives each observation the exposure time, to the second, that reaches the target depth of its band from the depth at its pixel (the mean of its neighbours where masked), kept within the given limits; rounding costs at most 1.25 log10(n/(n-1/2)) magnitudes, a brighter sky is exposed no shorter, calling again changes nothing, and it fails only without target, sky or unmasked neighbours.", "quantifier": "all depths, targets, limits, masks and lists", "why_tests_cant": "real-valued depths and limits", "anchors": ["rubin_scheduler/scheduler/detailers/vary_exptime.py:VaryExptDetailer"]}
{"id": "C78", "title": "Gates on a survey's own past visits keep their promise over a whole run", "statement": "In any run where a survey asks for a block only while its gate is open and every completed visit is reported: ForceDelay keeps its visits at least the delay, and VisitGap more than the gap, after every earlier visit with the note; FractionOfObs keeps the visits with the note within the fraction of all visits and reopens once others have observed enough; OnceInNight allows one block a night and opens again every night; SoftDelay waits the delay listed for the current share and no longer when the survey has fallen behind. The gates are shut only for those reasons.", "quantifier": "all interleavings of own blocks and other visits, all notes, delays, fractions, gaps and bands", "why_tests_cant": "closed-loop behaviour over unbounded histories", "anchors": ["rubin_scheduler/scheduler/basis_functions/feasibility_funcs.py:ForceDelayBasisFunction", "rubin_scheduler/scheduler/basis_functions/feasibility_funcs.py:FractionOfObsBasisFunction", "rubin_scheduler/scheduler/basis_functions/feasibility_funcs.py:OnceInNightBasisFunction", "rubin_scheduler/scheduler/basis_functions/feasibility_funcs.py:SoftDelayBasisFunction", "rubin_scheduler/scheduler/basis_functions/basis_functions.py:VisitGap"]}
{"id": "C79", "title": "Rewards are never stale", "statement": "Calling a basis function gives minus infinity when it is infeasible and otherwise the reward its features, told of every visit reported so far, give for the conditions asked about, whatever was asked before and at what times; wrapping mask functions in AreaCheckMask gives the common mask of the functions as they stand, when enough area is left.", "quantifier": "all classes, sequences of reported visits and calls, conditions and times", "why_tests_cant": "cache states reached by arbitrary call sequences", "anchors": ["rubin_scheduler/scheduler/basis_functions/basis_functions.py:BaseBasisFunction.__call__", "rubin_scheduler/scheduler/basis_functions/basis_functions.py:BaseBasisFunction.add_observation", "rubin_scheduler/scheduler/basis_functions/mask_basis_funcs.py:AreaCheckMaskBasisFunction"]}
{"id": "C80", "title": "A block started under open time gates stays in its window", "statement": "A block no longer than the time needed that starts while TimeToTwilight and NotTwilight are open is dark throughout, and one that starts while TimeToScheduled is open ends before every scheduled observation of every survey; CloseToTwilight, AfterEveningTwi and EndOfEvening are open only in the stretch of the night they name; InTimeWindow, NightModulo, BandLoaded and HourAngleLimit are open exactly in their windows, nights, bands and hour angles; RisingMore and LookAheadDdf hold a target back exactly while it will be better placed later, LookAheadDdf keeping to its fraction. Each gate is open whenever its condition holds.", "quantifier": "all times, twilights, lists, limits, patterns and scheduler states", "why_tests_cant": "all real times and states of the scheduler", "anchors": ["rubin_scheduler/scheduler/basis_functions/feasibility_funcs.py:TimeToTwilightBasisFunction", "rubin_scheduler/scheduler/basis_functions/feasibility_funcs.py:NotTwilightBasisFunction", "rubin_scheduler/scheduler/basis_functions/feasibility_funcs.py:TimeToScheduledBasisFunction", "rubin_scheduler/scheduler/basis_functions/feasibility_funcs.py:CloseToTwilightBasisFunction", "rubin_scheduler/scheduler/basis_functions/feasibility_funcs.py:AfterEveningTwiBasisFunction", "rubin_scheduler/scheduler/basis_functions/feasibility_funcs.py:EndOfEveningBasisFunction", "rubin_scheduler/scheduler/basis_functions/feasibility_funcs.py:InTimeWindowBasisFunction", "rubin_scheduler/scheduler/basis_functions/feasibility_funcs.py:NightModuloBasisFunction", "rubin_scheduler/scheduler/basis_functions/feasibility_funcs.py:BandLoadedBasisFunction", "rubin_scheduler/scheduler/basis_functions/feasibility_funcs.py:HourAngleLimitBasisFunction", "rubin_scheduler/scheduler/basis_functions/feasibility_funcs.py:RisingMoreBasisFunction", "rubin_scheduler/scheduler/basis_functions/feasibility_funcs.py:LookAheadDdfBasisFunction"]}
{"id": "C81", "title": "Masks on past visits keep their promise over a run", "statement": "MaskAfterNObs, NInNightMask and MaskAfterNObsSeeing mask a pixel exactly when it has had n visits in the band, overall, in the current night, or with good seeing in the current season; a survey that only aims at pixels unmasked when it last asked never takes more than n of them when each answer is used once (n-1+m when used m times); AvoidFastRevisits masks exactly the pixels seen less than the gap ago, so visits to one pixel in the band are at least the gap apart.", "quantifier": "all sequences of reported visits and requests for rewards, all conditions asked about, all pixels, bands, limits and gaps", "why_tests_cant": "the tests ask for a mask after a handful of visits; the bound holds over whole runs with stale answers, and the staleness at night and season boundaries and the all-pixel rounding on one tie only show in particular orders of visits and requests", "anchors": ["rubin_scheduler/scheduler/basis_functions/mask_basis_funcs.py:86-131", "rubin_scheduler/scheduler/basis_functions/mask_basis_funcs.py:162-186", "rubin_scheduler/scheduler/basis_functions/mask_basis_funcs.py:219-240", "rubin_scheduler/scheduler/basis_functions/basis_functions.py:639-677", "rubin_scheduler/scheduler/features/features.py:431-660"]}
{"id": "C82", "title": "Rewards share out turns, finish sequences and keep the band in use", "statement": "Among surveys rewarded by RewardNObsSequence with a large enough weight at most one is in the middle of its sequence at any time; surveys chosen by BalanceVisits, and bands chosen by BandDist, stay within one visit of each other over a whole run; StrictBand rewards a mounted band exactly when it is in use, none is, or a change is free because the moon or twilight changed, the last visit is long past or carries the note, so otherwise the scheduler stays in its band; a slew is traded for a band change exactly at the ratio of the weights of Slewtime and BandChange; MapModulo uses each map once per cycle of nights.", "quantifier": "all runs of visits chosen by the largest reward, all names, sequence lengths, weights and other rewards within the weight, all conditions", "why_tests_cant": "a test sees one reward for one history; what the rewards do to the order of visits is a statement about every run the scheduler can make with them", "anchors": ["rubin_scheduler/scheduler/basis_functions/basis_functions.py:279-297", "rubin_scheduler/scheduler/basis_functions/basis_functions.py:834-918", "rubin_scheduler/scheduler/basis_functions/basis_functions.py:931-984", "rubin_scheduler/scheduler/basis_functions/basis_functions.py:1282-1299", "rubin_scheduler/scheduler/basis_functions/basis_functions.py:1435-1509", "rubin_scheduler/scheduler/features/features.py:158-272"]}
{"id": "C83", "title": "Sky masks keep exactly the sky within their limits", "statement": "Each mask on the moon's distance, solar elongation, hour angle, seeing, wind and clouds gives a pixel the masked value exactly when that quantity is beyond the limit of its docstring, and the rewards for rising, near-sun, azimuth and declination by night are given exactly in their ranges, those of the declination bands once a cycle of nights for each pixel.", "quantifier": "all maps of any length, all limits and penalties, all nights and times", "why_tests_cant": "a test compares a few pixels with one limit; whether one pixel can change the mask of another, and whether ranges that wrap are kept, needs every map and range", "anchors": ["rubin_scheduler/scheduler/basis_functions/mask_basis_funcs.py:31-83", "rubin_scheduler/scheduler/basis_functions/mask_basis_funcs.py:134-159", "rubin_scheduler/scheduler/basis_functions/mask_basis_funcs.py:189-296", "rubin_scheduler/scheduler/basis_functions/mask_basis_funcs.py:331-357", "rubin_scheduler/scheduler/basis_functions/mask_basis_funcs.py:484-655", "rubin_scheduler/scheduler/basis_functions/basis_functions.py:680-714", "rubin_scheduler/scheduler/basis_functions/basis_functions.py:1179-1279", "rubin_scheduler/scheduler/basis_functions/basis_functions.py:1394-1432", "rubin_scheduler/scheduler/basis_functions/basis_functions.py:1512-1552", "rubin_scheduler/scheduler/features/conditions.py:395-397"]}
{"id": "C84", "title": "Wanted coverage grows in season and rolling keeps its sum", "statement": "The wanted coverage of a pixel never falls, has no jumps, rises by one step a year and stands still while the sun is within 90 degrees of the pixel in right ascension; in a rolling footprint every pixel of the wide area is in exactly one slice, slices are of like size and share each season's visits with mean one, each slice has its full sum after every cycle, the maps of the parts add up to the goal maps, and before, after and at the end of each cycle the wanted visits are those of a footprint that does not roll.", "quantifier": "all dates, positions of pixels and of the sun, step lists, numbers of slices and cycles, strengths and orders of rolling, goal maps and wide areas", "why_tests_cant": "tests build one footprint and look at its sum; that visits are moved between seasons and never lost or gained is a statement about every slice, cycle and date", "anchors": ["rubin_scheduler/scheduler/utils/footprints.py:68-341", "rubin_scheduler/scheduler/utils/footprints.py:374-402", "rubin_scheduler/scheduler/utils/footprints.py:650-701"]}
{"id": "C85", "title": "Footprints answer for the date and their reward keeps visits near the shares", "statement": "A footprint or sum of footprints asked for dates in any order gives for each date the answer a new one would, a share of visits adding up to one unless it is zero everywhere; the footprint rewards inside the footprint add up to the number of visits outside it, so the most rewarded pixel never has more than its share, and visits that follow the reward keep every pixel within one visit above its share and within the number of pixels below it.", "quantifier": "all sequences of dates asked for, all maps, all lists of visits and runs following the reward, all shares", "why_tests_cant": "a test asks once or twice; what was asked before changes the stored answer, and the bound on visits is about whole runs", "anchors": ["rubin_scheduler/scheduler/utils/footprints.py:405-593", "rubin_scheduler/scheduler/basis_functions/rolling_funcs.py:23-99", "rubin_scheduler/scheduler/features/features.py:275-374"]}
{"id": "C86", "title": "Cadence rewards ask for pairs and windows, and for no more", "statement": "The repeat reward is one at exactly the pixels last visited in its bands a gap ago that is within its limits and that still have fewer pairs in the night than asked for, so that visits following it give no pixel more than the pairs asked for in a night; the cadence reward follows the time since the last visit in its bands through the windows given, so that rewarded visits are spaced by a time in the window; the smooth cadence reward stays between its amplitudes and has no jump.", "quantifier": "all lists of visits and questions in any order, gaps, numbers of pairs, bands, windows in either order, areas, amplitudes and slopes, all pixels and times", "why_tests_cant": "tests ask once after one visit; that the pairs of a night are bounded is a statement about whole nights of visits and questions, and comparisons that round all pixels together only show on ties", "anchors": ["rubin_scheduler/scheduler/basis_functions/basis_functions.py:715-773", "rubin_scheduler/scheduler/basis_functions/basis_functions.py:987-1055", "rubin_scheduler/scheduler/basis_functions/basis_functions.py:1058-1080", "rubin_scheduler/scheduler/basis_functions/basis_functions.py:1132-1144"]}
{"id": "C87", "title": "Rewards for visits per year and season stop when they are made", "statement": "The yearly reward is above zero only at pixels of the footprint that had fewer visits in the band than asked for in the last days, rises from 0 to 1 through the pixel's season and is never above 1, so that in any stretch of that many days visits following it give no pixel more than asked for; the good-seeing reward is one at exactly the pixels where the image would now be sharp and deep enough and that had fewer good visits than asked for since their season opened, so that no pixel is given more in a season, and visits that are not good do not use it up.", "quantifier": "all lists of visits and questions in order of time, all positions of the sun and of pixels, season lengths, limits, maps and numbers of visits", "why_tests_cant": "tests ask once; the bound is about whole runs of visits and questions over years, and the count must start again per pixel when its own season opens", "anchors": ["rubin_scheduler/scheduler/basis_functions/basis_functions.py:308-386", "rubin_scheduler/scheduler/basis_functions/basis_functions.py:389-470", "rubin_scheduler/scheduler/features/features.py:377-660"]}
{"id": "C88", "title": "Site records answer with the entry nearest in time", "statement": "The seeing and cloud records return the value whose date is nearest to the moment asked about, repeating after the length of the record (whole years for clouds); a store of cloud maps returns the map of the frame nearest in time among the most recent frames, or zero when none is within the time limit, in whatever order frames are added.", "quantifier": "all records, moments before, within and after them, scales of rounding, lists of frames in any order, limits and numbers of frames kept", "why_tests_cant": "tests ask a few moments of one record; the first date, whole lengths and late frames are single points among all moments and orders", "anchors": ["rubin_scheduler/site_models/seeing_data.py:53-121", "rubin_scheduler/site_models/cloud_data.py:58-135", "rubin_scheduler/site_models/cloud_maps.py:30-113"]}
{"id": "C89", "title": "Unscheduled downtimes are apart and looked up exactly", "statement": "Whatever the random draws, unscheduled downtimes start on whole nights of the survey, last 1, 3, 7 or 14 nights by kind with the stated chances, have at least a night between them, and together exceed the survey by at most 13 nights; first-year engineering time lies within single nights and is at least an hour or the whole night; the status at a time names the downtime holding it, if any, and exactly those still to come, and DowntimeModel reports down exactly when some downtime holds the time, until the last end of those, with the next scheduled start.", "quantifier": "all sequences of draws, survey lengths, nights, lists of downtimes and times", "why_tests_cant": "tests use one seed; overlap of the two kinds and times after the last scheduled downtime need particular draws", "anchors": ["rubin_scheduler/site_models/unscheduled_downtime_data.py:75-251", "rubin_scheduler/site_models/downtime_model.py:43-103"]}
{"id": "C90", "title": "Nights are found and numbered by their sunsets", "statement": "For a time, the almanac gives the night with the latest sunset not after it; counted from the survey start, its number is the number of sunsets since then (the start's own night is number 1), is constant through a night and agrees with the observatory's night number up to one; for a local date it gives the night whose sunset falls on that date, or raises ValueError when there is none, whatever the machine's time zone.", "quantifier": "all tables with increasing sunsets, times, survey starts, dates, longitudes and machine time zones", "why_tests_cant": "tests use the shipped table, one start by day and the zone of the test machine", "anchors": ["rubin_scheduler/site_models/almanac.py:16-27", "rubin_scheduler/site_models/almanac.py:85-175", "rubin_scheduler/scheduler/model_observatory/model_observatory.py:503-511"]}
{"id": "C91", "title": "Delivered seeing and depth follow the conditions", "statement": "The seeing model combines system and atmosphere in quadrature, grows as airmass^0.6, is worse with worse seeing and in bluer bands, gives the same for an airmass alone or in an array, and its two sizes convert into each other. The limiting depth grows with a darker sky, sharper images, longer or more exposures, lower airmass and less cloud, equals the tabulated value in reference conditions, gains 1.25 log10 n from n exposures, between 1 and 2 times 1.25 log10 k from k times the time, and nothing from splitting a visit. The depth reward is never positive in conditions no better than the fiducial ones and zero on the meridian in those; a visit is recorded no deeper than the conditions promised for it.", "quantifier": "all bands, seeings, airmasses, sky brightnesses, exposure times, positions and numbers of exposures", "why_tests_cant": "tests sample a few values; monotonicity, scaling laws and the sign of the reward range over all conditions", "anchors": ["rubin_scheduler/site_models/seeing_model.py:88-179", "rubin_scheduler/utils/m5_flat_sed.py:58-158", "rubin_scheduler/utils/sys_eng_vals.py:13-80", "rubin_scheduler/skybrightness_pre/dark_sky.py:42-78", "rubin_scheduler/scheduler/basis_functions/basis_functions.py:776-827", "rubin_scheduler/scheduler/model_observatory/model_observatory.py:517-551"]}
{"id": "C92", "title": "The pointings survey counts by note, keeps its limits and gaps, and balances its targets", "statement": "PointingsSurvey rejects repeated notes; after any sequence of reports (single or batched) and questions, the count of a target is the number of visits with its note, the last time is that of the latest such visit, and a tracked sequence has the number of visits whose note contains its key. It offers the first of the targets with the best weighted total; the offered target is within the altitude, moon, wind and hour angle limits named in the weights and was last visited at least the gap ago; a target within all limits is never masked. balance_revisit favours targets visited less; nothing is offered while the sun is above the limit of the survey.", "quantifier": "all lists of targets, weights, limits, histories of reports and conditions", "why_tests_cant": "tests run one default survey for a few visits; the claims range over all histories, limits and mixtures of single and batched reports", "anchors": ["rubin_scheduler/scheduler/surveys/pointings_survey.py:62-335", "rubin_scheduler/scheduler/schedulers/core_scheduler.py:209-245", "rubin_scheduler/scheduler/schedulers/core_scheduler.py:412-440"]}
{"id": "C93", "title": "The long gap survey schedules one repeat per finished pair of the night and offers it near its time", "statement": "After any sequence of reports and questions, LongGapSurvey holds in its script exactly one follow-up for each second visit of a pair (note of the blob survey plus ', b') in the latest night of each report made since it last saw a new night: same position, band and exposure, the gap of that night later, delayed by the least number of steps that keeps all looked-at altitudes below the limit. A new night empties the script. Asked after the reward, it offers the eligible follow-ups, each within its tolerance and flush time, else what the blob survey offers; the reward is the better of the two. A restart in the night keeps the follow-ups, follow-ups are placed before the end of the night, a site may be given, and generate_observations may be called first.", "quantifier": "all reports, conditions, gaps, settings, altitude functions and blob surveys", "why_tests_cant": "tests construct one survey and run it a few nights; histories, batches, altitudes and restarts are unbounded", "anchors": ["rubin_scheduler/scheduler/surveys/long_gap_survey.py:46-262", "rubin_scheduler/scheduler/surveys/scripted_surveys.py:120-400"]}
{"id": "C94", "title": "Sky brightness is interpolated between the stored maps around the time, whatever was asked before", "statement": "After any questions, SkyModelPre.return_mags at a time between two stored maps no more than a step apart returns, for each pixel and band, the value on the line through the two maps; between maps further apart it returns the closest map, or the bright sky approximation when the sun is up; masked pixels get the mask value asked for, or with extrapolate the lowest value of the nearest unmasked pixels. The answer does not depend on the questions asked before, and a failed question leaves the others answerable. interp_angle moves along the shorter arc, stays within a turn and keeps the end values outside.", "quantifier": "all files, times, histories of questions, loaded lengths, pixels, bands, mask values", "why_tests_cant": "tests ask a few times of one file in one order; chunk edges, histories and masks are unbounded", "anchors": ["rubin_scheduler/skybrightness_pre/sky_model_pre.py:30-80", "rubin_scheduler/skybrightness_pre/sky_model_pre.py:191-451"]}
{"id": "C95", "title": "Deep drilling sequences are put at safe times, as many as asked, where the wanted rate puts them", "statement": "match_cumulative returns one event for every unit of the wanted curve, at the free element nearest to where the rounded curve rises, never on a masked element and at most one each. optimize_ddf_times returns times of the grid in increasing nights, at most one a night, from which for the length of a sequence sun, airmass, sky, depth, parity and moon stay within the limits; each is the deepest such time of its night. With only_season they lie in that season and there are season_seq of them, or as many as nights allow; no time lies in the off season.", "quantifier": "all curves, masks, grids, night functions, limits, seasons, rates and numbers of sequences", "why_tests_cant": "tests run one stored grid for a few fields and look at totals; curves, masks and grids are unbounded", "anchors": ["rubin_scheduler/scheduler/example/lsst_ddf_presched.py:54-208", "rubin_scheduler/scheduler/example/lsst_ddf_presched.py:211-467"]}
{"id": "C96", "title": "Prescheduled deep drilling visits are those of the configured sequences", "statement": "generate_ddf_scheduled_obs returns, for every row of the configuration and every time optimize_ddf_times gives it, the configured number of visits in each band at the field of the row, with its exposure, flush time and the given limits, the distance to the moon included; through the sequence it is dark enough, the airmass and depth are within limits, u only rows avoid the moon and y only rows the dark. Rows marked even and odd share no night and no two rows of a field the same time. A row with a season gets no more sequences than configured and no error; no times at all give no visits.", "quantifier": "all configurations, field lists, grids, night functions and limits", "why_tests_cant": "the tests generate one configuration and check that visits come out; rows, parities, fields and grids are unbounded", "anchors": ["rubin_scheduler/scheduler/example/lsst_ddf_presched.py:470-742"]}
{"id": "C97", "title": "A footprint gives each pixel the weights of the first region that contains it, and visits estimated from it add up", "statement": "return_maps gives every pixel the label of the first region, in the order of the method, whose documented bounds (circles, dust and declination limits, the tapered galactic bulge with its maximum declination, the ecliptic, the Euclid polygon, the polar cap) contain it, and that region's ratio in each band, 0 where no ratio is given; pixels with one label have the same weights; south of the northern limits no pixel is left out. The maps come back for every resolution and any dust map file. estimate_visits and estimate_visits_per_label share out all visits and agree with each other; band_count_ratios adds up to 1; generate_all_sky masks exactly the pixels that never reach the elevation limit.", "quantifier": "all pixel coordinates, parameters, ratios, separations, polygons and dust maps", "why_tests_cant": "the tests build one map at the default parameters and check maxima and labels; parameters, pixels and the overlaps of regions are unbounded", "anchors": ["rubin_scheduler/scheduler/utils/sky_area.py:51-124", "rubin_scheduler/scheduler/utils/sky_area.py:184-709", "rubin_scheduler/scheduler/utils/sky_area.py:770-890", "rubin_scheduler/scheduler/utils/sky_area.py:955-1085", "rubin_scheduler/scheduler/utils/sky_area.py:1088-1256"]}
{"id": "C98", "title": "Positions on the sphere, separations, cone searches and rotations agree with each other", "statement": "_xyz_from_ra_dec gives the point of the unit sphere at (ra, dec) and _ra_dec_from_xyz undoes it, returning an ra between 0 and 2 pi unchanged; _angular_separation is the angle between the two positions, a distance in [0, pi] that is never nan, element by element for arrays of equal length or of one element, and refuses other shapes; a tree search within _xyz_angular_radius(r) finds exactly the points within r; the rotations about the axes keep angles, add up and turn the axes as documented; rotation_matrix_from_vectors gives a rotation that turns the first unit vector into the second; arcsecond conversions undo each other.", "quantifier": "all real angles, vectors, radii and array lengths", "why_tests_cant": "tests compare a few hundred random points with astropy; the identities, the triangle inequality and the edges (poles, opposite points, radii beyond half a turn, parallel vectors) range over all reals", "anchors": ["rubin_scheduler/utils/coordinate_transformations.py:261-306", "rubin_scheduler/utils/coordinate_transformations.py:332-542", "rubin_scheduler/utils/coordinate_transformations.py:567-612", "rubin_scheduler/utils/code_utilities.py:59-122"]}
{"id": "C99", "title": "Bearings, destinations, tangent-plane offsets and distances to an arc describe the same points", "statement": "Going the separation along bearing(p1, p2) from p1 ends at p2, and dest_latlon ends at the given separation and bearing from any start; gnomonic_project_tosky puts the offset (x, y) x to the east and y to the north on the tangent plane, so a dither of length r moves a pointing by arctan r and never more than r, and the two projections undo each other; point_to_line_distance is the least separation between the third point and the arc from the first to the second.", "quantifier": "all points, distances, bearings and offsets", "why_tests_cant": "tests check a few points near the equator; the poles, the far side of the sky and arcs seen from more than 90 degrees away are not visited", "anchors": ["rubin_scheduler/utils/bearing.py:8-79", "rubin_scheduler/utils/projections.py:6-23"]}
{"id": "C100", "title": "Sidereal time, horizon coordinates and parallactic angles describe one sky and undo each other", "statement": "calc_lmst is an hour of the day in [0, 24) that moves with the date at the sidereal rate and with the longitude; _wrap_hour_angle keeps an hour angle between -pi and pi; _approx_ra_dec2_alt_az gives the altitude above the horizon (90 degrees less the separation from the zenith) and the azimuth from north through east in [0, 2 pi); _approx_alt_az2_ra_dec gives the position seen in that direction, with ra in [0, 2 pi), and each undoes the other; the parallactic angle is the direction of the zenith at the target from north through east, and both formulas for it agree.", "quantifier": "all dates, sites, sidereal times, positions and directions", "why_tests_cant": "tests compare random points at one western site with astropy within an arcminute; eastern sites, the celestial pole, and exact inverse relations over all reals are outside", "anchors": ["rubin_scheduler/utils/approx_coord_transforms.py:15-38", "rubin_scheduler/utils/approx_coord_transforms.py:96-142", "rubin_scheduler/utils/approx_coord_transforms.py:186-236", "rubin_scheduler/utils/coordinate_transformations.py:47-57", "rubin_scheduler/utils/coordinate_transformations.py:81-94", "rubin_scheduler/utils/coordinate_transformations.py:122-157"]}
{"id": "C101", "title": "The triangular mesh partitions the sky, level by level, and every position is found in it", "statement": "level_from_htmid(id) is the level l for exactly the ids from 8*4^(l-1) to 16*4^(l-1)-1 and raises for all others; trixel_from_htmid(id) is the one reached by the child numbers written in the id; the trixels of a level cover the sky and no two of them share an inner point; the four children fill their parent; get_all_trixels(level) holds exactly the ids of levels 1 to level, each with its trixel; find_htmid gives, for every position, the id of a trixel of the asked level that contains it, and gives the same for one position as for an array of them.", "quantifier": "all ids, levels, positions, and cached meshes left by earlier calls", "why_tests_cant": "tests draw random positions and a few levels; level 1, positions on the edges of trixels (a set of measure zero), and arrays against single values on those edges are never drawn", "anchors": ["rubin_scheduler/utils/htm_module.py:138-319", "rubin_scheduler/utils/htm_module.py:476-857"]}
{"id": "C102", "title": "A half space says rightly which trixels it contains, and lists them all", "statement": "HalfSpace(v, d).contains_pt(p) holds exactly when the direction of p is within the circle of cosine d around v. contains_trixel answers 'full' only if every point of the trixel is inside, 'outside' only if none is, and 'partial' only if some point is inside or on the circle and some is not inside. intersects_edge holds exactly when the circle crosses the arc. find_all_trixels(level) gives ranges of ids of that level, in order and apart, that hold every trixel with a point inside and no trixel that stays clear of the circle.", "quantifier": "all vectors, cosines, levels, trixels and points", "why_tests_cant": "tests compare on random fields of small radius at one level; caps wider than a hemisphere, the eight trixels of level 1, edges that start on the circle and the level 1 search are never drawn, and each trixel holds infinitely many points", "anchors": ["rubin_scheduler/utils/htm_module.py:365-401", "rubin_scheduler/utils/htm_module.py:860-1097", "rubin_scheduler/utils/htm_module.py:1196-1275"]}
{"id": "C103", "title": "Merging ranges of trixel ids keeps the ids and joining them keeps the common ones", "statement": "merge_trixel_bounds(bounds) holds exactly the ids of bounds, as ranges in order with at least one id between neighbours, so that it depends only on the ids held; join_trixel_bound_sets(b1, b2) holds exactly the ids held by both, in the same form, whichever comes first.", "quantifier": "all lists of upward ranges of ids from 0, in any order, overlapping or not", "why_tests_cant": "tests merge a few hand made lists; which ids of all are held, for every list, order and overlap, takes a proof, and empty sets are not tried", "anchors": ["rubin_scheduler/utils/htm_module.py:1098-1194"]}
{"id": "C104", "title": "Half spaces made from fields and points, and the points where two circles meet", "statement": "half_space_from_ra_dec(ra, dec, radius) contains exactly the positions separated from (ra, dec) by less than radius, and find_all_trixels of it holds the find_htmid of each of them; half_space_from_points(pt1, pt2, pt3) is the half of the sphere bounded by the great circle through pt1 and pt2 that contains pt3; intersect_half_spaces gives exactly the points of the sphere on both circles, none if they do not meet or are parallel.", "quantifier": "all positions, radii, levels from 2, vectors and cosines", "why_tests_cant": "tests draw random fields; radii beyond 180, third points on the great circle, touching and nearly parallel circles are not drawn", "anchors": ["rubin_scheduler/utils/htm_module.py:1278-1384"]}
{"id": "C105", "title": "Binning puts every value in its own bin and multi-order maps keep their total", "statement": "int_binned_stat(ids, values) gives each id once in rising order with the statistic of exactly its values. healbin gives each pixel the reduction of the values that fall in it, and fill_val where none does or the result is nan. moc2array reads the order and pixel of every cell number; with a density the map times the pixel area keeps the total, each pixel holds what the cells centred in it hold, and a density given over the whole sky comes back everywhere. ra_dec_nearest_interp is the mean over the nearest pixels. match_hp_resolution leaves no UNSEEN and leaves its input alone.", "quantifier": "all ids, values, statistics that do not look at order, sorts, cells, orders, fill values and maps", "why_tests_cant": "tests bin one random set with one reduction; argsort is free in how it orders equal ids, and cells coarser than the map, sums equal to the fill value and aliasing of the input are not tried", "anchors": ["rubin_scheduler/utils/binned_stats.py:6-37", "rubin_scheduler/scheduler/utils/utils.py:349-367", "rubin_scheduler/utils/healpy_utils.py:24-53", "rubin_scheduler/utils/healpy_utils.py:147-197", "rubin_scheduler/utils/healpy_utils.py:240-309", "rubin_scheduler/utils/healpy_utils.py:453-473"]}
{"id": "C106", "title": "Growing a mask adds exactly the pixels within grow_size, whatever was grown before", "statement": "For a sequence of calls of hp_grow_mask, each answer depends on its own arguments only: the state kept between calls never shows. Without a scale the pixels given are exactly those within grow_size of a masked one; with scale k they are, but for an angle of 3/k; masked pixels stay masked, and the answer grows with the mask and with grow_size. A grow_size of any angle and an empty mask are taken.", "quantifier": "all sequences of calls, resolutions, masks, sizes, scales and pixel centres", "why_tests_cant": "tests grow one mask once or twice; the trees and the answers kept on the function make any call depend on the order of earlier ones, and the error of rounding to integers depends on where pixels lie", "anchors": ["rubin_scheduler/utils/healpy_utils.py:390-450", "rubin_scheduler/utils/tree_utils.py:15-52"]}
{"id": "C107", "title": "The pixels in a circular field of view are those within its radius but for the rounding", "statement": "HpInLsstFov with scale k and a radius with radius + 3/k at most 60 degrees gives, for one pointing, every pixel at least 3/k inside the radius and none more than 3/k outside it; called with arrays it gives for each pointing the pixels it gives for it alone, in rising order.", "quantifier": "all resolutions, radii and scales in the guard, pointings and arrays of them", "why_tests_cant": "tests compare counts at one radius and resolution; the scaled integer tree moves every pixel by up to half a unit, and the error has to be bounded for all positions", "anchors": ["rubin_scheduler/scheduler/utils/utils.py:636-704"]}
{"id": "C108", "title": "The pixels in the square field are those of the turned square but for the rounding", "statement": "HpInComcamFov with scale k, a side of at least 31 units and half diagonal + 3/k at most 60 degrees gives, for any rotation and where some pixel lies within the outer circle, each pixel at most once, every near-side pixel at least 11/k inside the turned square of the tangent plane, and only pixels that lie less than 11/k outside that square or within half a side + 3/k of the pointing, all within half a diagonal + 3/k of it.", "quantifier": "all resolutions, sides and scales in the guard, pointings and rotations", "why_tests_cant": "tests try a few rotations at one side length; corners and pixels are both rounded to integers, so an all-positions error bound is needed", "anchors": ["rubin_scheduler/scheduler/utils/utils.py:707-822"]}
{"id": "C109", "title": "The camera footprint gives exactly the objects that land on live silicon near the pointing", "statement": "LsstCameraFootprint gives in rising order exactly the indices of the objects whose rotated projection is nearest to a pixel of the image that is on silicon and within max_radius. Every object given lies within max_radius and half the diagonal of a pixel of the pointing. Degrees and radians give the same.", "quantifier": "all square images on an even axis, radii, objects, pointings and rotations", "why_tests_cant": "tests look at a few objects near one pointing; whether objects anywhere else on the sky can land on the camera needs all positions", "anchors": ["rubin_scheduler/utils/camera_footprint.py:12-18", "rubin_scheduler/utils/camera_footprint.py:43-63", "rubin_scheduler/utils/camera_footprint.py:65-120"]}
{"id": "C110", "title": "Random points fall uniformly on the sphere or the patch, and the seed alone decides them", "statement": "uniform_sphere gives as many points as asked for, right ascension in [0, 360) and declination in [-90, 90], with declination at most d for exactly the share (1 + sin d) / 2 of the numbers drawn. sample_patch_on_sphere raises exactly for a patch over a pole; otherwise every point is on the patch, declinations follow its area, and right ascensions are in [0, 360). The same seed gives the same points whatever was drawn before, and a caller's own random numbers are not disturbed.", "quantifier": "all numbers a generator can draw, seeds, sizes and patches", "why_tests_cant": "tests draw a sample and compare histograms with a tolerance; the law over all numbers drawn and the edges of the range are not reached", "anchors": ["rubin_scheduler/utils/sampling_functions.py:7-19", "rubin_scheduler/utils/sampling_functions.py:22-81"]}
{"id": "C111", "title": "The tessellation covers the sphere, mirrors it, and meets with the overlap asked for", "statement": "comcam_tessellate gives fields with right ascension in [0, 2 pi) and declination in [-pi/2, pi/2], mirrored at the equator. For a step (side less overlap) of at most eleven degrees some field is within 7/12 of the step of every position, in declination and along its parallel, so an overlap of a seventh of the side covers it. An overlap of a side or more gives no field. Neighbouring squares meet for any overlap, and no field is given twice.", "quantifier": "all side lengths, overlaps and positions", "why_tests_cant": "there is no test; coverage is a claim about every position on the sphere and every step", "anchors": ["rubin_scheduler/scheduler/utils/comcam_tessellate.py:6-65"]}
{"id": "C112", "title": "Rise and set times are exact for a fixed body, and a time that did not converge is warned of", "statement": "If Newton's method has all nights within the tolerance after fewer than max_iter steps, riseset_times gives a time for each at which the body is within the tolerance of the altitude. For a body fixed among the stars and uniform sidereal time the answer is exact, sinking for 'down' and rising otherwise, and lies in the sidereal day before, around or after the night as which_night says. Otherwise a warning names a night that did not converge. Each night's time does not depend on the others, and which_direction takes 'evening' and 'morning'.", "quantifier": "all bodies, sites, nights, altitudes, tolerances and numbers of steps; nan left out", "why_tests_cant": "tests compare a few nights of the sun with astropy; nights that fail to converge and the mixture of nights are not tried", "anchors": ["rubin_scheduler/utils/riseset.py:14-126"]}
{"id": "C113", "title": "Visits from the consolidated database: the nights asked for, and columns that mean what they say", "statement": "mjd2dayobs gives a calendar date that changes at noon UTC only (offset -0.5) and goes up by one calendar day each day. consdb_visits selects exactly the visits of the day_obs given and the num_nights - 1 calendar days before it. query_consdb returns the first good reply of three or raises. Where the database lacks a column: altitude and azimuth are the middle between start and end, airmass is 1 at the zenith, increases towards the horizon and is at most 1 / sin(altitude); the middle of the exposure is halfway; identifiers are different for different visits. night is never negative, the same for visits between the same two noons, and does not depend on the other visits loaded; slew_distance is that from the visit before; sky brightness does not depend on clouds and scales with electrons per second and square arc second; eff_time_m5 for LATISS is the database's or nan.", "quantifier": "all dates, times, replies, tables and numbers of nights", "why_tests_cant": "tests need the database and compare a recorded night; month ends, leap days, replies that are neither good nor errors, azimuths across north and the order of rows are not reached", "anchors": ["rubin_scheduler/utils/dayobs.py:5-28", "rubin_scheduler/utils/consdb.py:80-128", "rubin_scheduler/utils/consdb.py:175-191", "rubin_scheduler/utils/consdb.py:330-391", "rubin_scheduler/utils/consdb.py:462-480", "rubin_scheduler/utils/consdb.py:583-592", "rubin_scheduler/utils/consdb.py:676-697", "rubin_scheduler/utils/consdb.py:786-797", "rubin_scheduler/utils/consdb.py:914-926", "rubin_scheduler/utils/consdb.py:1133-1206", "rubin_scheduler/utils/consdb.py:1247-1261", "rubin_scheduler/utils/consdb.py:1340-1356"]}
{"id": "C114", "title": "Zernike polynomials are the orthogonal polynomials of the unit disk, for numbers, arrays and positions", "statement": "After any calls, ZernikePolynomialGenerator.evaluate gives R_n^|m|(r) times cos(m phi), or the sine for negative m, as defined in the reference the code cites: with integral over the unit disk of the product of two of them 0 if they differ and norm(n, m) if not, and R = 1 at r = 1. It gives nan exactly for r > 1, the same for arrays as for their numbers, and evaluate_xy the value at any polar coordinates of the position. Orders with n < |m| raise, orders with n - m odd give 0. Factorials are right after any calls.", "quantifier": "all orders, radii, angles and earlier calls", "why_tests_cant": "tests integrate numerically for orders up to a small bound; orthogonality for all orders and the values at the edge are not reached", "anchors": ["rubin_scheduler/utils/zernike_module.py:8-36", "rubin_scheduler/utils/zernike_module.py:39-118", "rubin_scheduler/utils/zernike_module.py:120-258"]}
{"id": "C115", "title": "The rough table of nights has one row per sunset, each with the events of that night", "statement": "From altitudes on a grid of increasing times, alt_passing_interp gives in order the times at which the straight line between neighbouring altitudes has the goal, all of them, rising or setting as asked. In the table of nights the sunsets are those from mjd_start on, numbered from 1; every entry of a night is a passage after its sunset and not after the next; every night has a sunrise between its sunset and the next one, and entries that do not occur in a night are told from times.", "quantifier": "all grids, altitudes, goals and starts", "why_tests_cant": "the tables are generated once for one site and one span; other grids, edges and nights without a moonrise are not tested", "anchors": ["rubin_scheduler/scheduler/model_observatory/generate_altitudes.py:11-34", "rubin_scheduler/scheduler/model_observatory/generate_altitudes.py:54-163"]}
{"id": "C116", "title": "Observation arrays keep their rows and values when listed, joined, converted and given bands", "statement": "tolist gives one array per row and joining them gives the array back; joining in parts is joining at once. to_observation_array carries every field that both classes have, in every row, and leaves the others blank. backfill_filter_from_band leaves rows with a band alone, gives others the filter without underscores and digits at its end, changes nothing else, and doing it again or before a conversion makes no difference.", "quantifier": "all arrays of both classes", "why_tests_cant": "tests convert one array with short names; widths of text fields, empty arrays and all fields of all rows are not reached", "anchors": ["rubin_scheduler/scheduler/utils/observation_array.py:12-40", "rubin_scheduler/scheduler/utils/observation_array.py:118-212", "rubin_scheduler/scheduler/utils/observation_array.py:253-300"]}
{"id": "C117", "title": "The baseline surveys keep the safety limits they are given, and have the weights, bands, names and lengths asked for", "statement": "Every survey made by the generators of lsst_surveys is under every safety mask the caller asks for (moon, planets, wind, altitude and azimuth, and the azimuths before sunrise), at the survey's own resolution, for at least the minutes the survey needs and at least shadow_minutes if given; its zenith limit is masked too. The weights of depth, footprint, slew and band are the ones given, shared equally over a pair, and everything else only masks, except the repeat and good-seeing terms. There is one survey per pair of bands, surveys of different bands have different names and reasons, a pair fits into the shadow and the time before twilight, only one long-gap blob is begun in a night, and u visits have the exposures asked for.", "quantifier": "all arguments of the generators: all lists of bands, all safety dictionaries, weights, times and resolutions", "why_tests_cant": "tests build the default surveys; the dictionaries, resolutions, lists of bands and numbers of exposures other than the default are not reached", "anchors": ["rubin_scheduler/scheduler/example/lsst_surveys.py:46-148", "rubin_scheduler/scheduler/example/lsst_surveys.py:151-298", "rubin_scheduler/scheduler/example/lsst_surveys.py:301-514", "rubin_scheduler/scheduler/example/lsst_surveys.py:517-737", "rubin_scheduler/scheduler/example/lsst_surveys.py:740-876", "rubin_scheduler/scheduler/example/lsst_surveys.py:879-1026", "rubin_scheduler/scheduler/example/lsst_surveys.py:1029-1305", "rubin_scheduler/scheduler/example/lsst_surveys.py:1308-1528", "rubin_scheduler/scheduler/example/lsst_surveys.py:1531-1732"]}
{"id": "C118", "title": "Simulated events lie within the dates and on the sphere, are as many as asked, and each is followed by exactly one survey", "statement": "gen_all_events gives events between the dates asked, anywhere on the sphere, of the radius of their kind, lasting three days, in order of time and numbered in that order, with the pixels within the radius as footprint. The number of each kind follows the scale or the length of the run, the solar system events of a kind are on different nights, those of twilight on the first of every four. The server gives an event exactly while it lasts. Every event is followed by exactly one of the surveys of gen_too_surveys, whose scripts have as many times as bands, visits and exposures.", "quantifier": "all dates in order, scales, choices of kinds, random draws, pixels and times", "why_tests_cant": "tests make the default ten years with one seed; short runs, other scales and other draws are not reached, nor the pairing of labels with surveys", "anchors": ["rubin_scheduler/scheduler/targetofo/gen_events.py:19-74", "rubin_scheduler/scheduler/targetofo/gen_events.py:77-129", "rubin_scheduler/scheduler/targetofo/gen_events.py:132-171", "rubin_scheduler/scheduler/targetofo/gen_events.py:174-223", "rubin_scheduler/scheduler/targetofo/gen_events.py:226-341", "rubin_scheduler/scheduler/targetofo/gen_events.py:344-411", "rubin_scheduler/scheduler/utils/too_objects.py:102-120", "rubin_scheduler/scheduler/example/too_surveys.py:16-400"]}
{"id": "C119", "title": "The deep drilling plan covers each field, season and band, is deeper where said, and its stored schedule is the one its code makes", "statement": "define_ddf_seq has rows for the five fields in each of the seasons 0 to 10, with each of the six bands in one row (griz in a second one in the deep seasons), u and y alone, g with i and r with z on nights of opposite parity. A deep season asks for more than twice the visits of any other in every band. The Euclid field asks for a quarter more still in its one deep season; every row has a limit of depth. Every row is given at most the nights it asks for, u while the moon is down to the limit and y above it; a row gets the visits it asks for, can have the nights it asks for in its season, and fits in the shadow of gen_ddf_surveys. Whatever calls came before, gen_ddf_surveys schedules what its code makes of its arguments, with masks no shorter than asked.", "quantifier": "all fields, seasons and bands; all grids, locations and settings; all sequences of calls, files and checksums", "why_tests_cant": "tests build the default surveys once and check that they exist; no test compares the rows with each other, uses a stored schedule after a change, or reads the times of a schedule", "anchors": ["rubin_scheduler/scheduler/example/lsst_ddf_gen.py:29-274", "rubin_scheduler/scheduler/example/lsst_ddf_gen.py:277-423", "rubin_scheduler/scheduler/example/lsst_ddf_presched.py:470-742"]}
{"id": "C120", "title": "The Roman field is observed in one of its two seasons at a time, in the dark and near the meridian, at its cadence, with its sequence and masks", "statement": "gen_roman_on_season asks for visits exactly when the field is within four hours of the meridian, between the 18 degree twilights, within 32 days of one of the six dates and 0.8 days after its last visit; gen_roman_off_season between two such seasons, a day away from both, three days after its last visit and at airmass 1.05 to 2.7. Never both; from the first season to the last one or the other save for a day on each side of a season. On season it takes giriz once each in that order, off season griz twice each, every third day, at the exposure and number of snaps asked; the safety masks asked hold, their shadow covers the sequence, at any resolution.", "quantifier": "all times, hour angles, twilights, histories, mounted and current bands, exposures, numbers of snaps, resolutions and dictionaries of mask settings", "why_tests_cant": "tests only construct the surveys as part of the baseline; the seasons start years after the simulated nights, and no test varies resolution, masks, band or history", "anchors": ["rubin_scheduler/scheduler/example/roman_surveys.py:13-42", "rubin_scheduler/scheduler/example/roman_surveys.py:45-153", "rubin_scheduler/scheduler/example/roman_surveys.py:156-265", "rubin_scheduler/scheduler/surveys/dd_surveys.py:48-173", "rubin_scheduler/scheduler/basis_functions/feasibility_funcs.py:147-174"]}
{"id": "C121", "title": "The baseline scheduler: events first, one kind of twilight survey a night, names, bands, exposures, shadows, ignored notes, and the start, resolution and file asked", "statement": "gen_scheduler, for any namespace, makes the same surveys in the same order with and without simulated events, save for those that follow events, which come first. In the twilight of each night exactly one of the near-sun and the short-pair surveys may look, triplets only on near-sun nights. No two surveys share a name; each of ugrizy has a template and is in a pair; every survey takes one snap of 30 s (15 s near the sun, 38 s in u); every shadow covers the time the survey takes (near the sun, all its passes); each survey ignores the visits of the surveys outside the wide survey, visits that follow events among them. All of it starts at the start asked and is on maps of the resolution asked; with setup_only nothing runs; a run has the length asked, events unless refused, and its own file in the folder asked.", "quantifier": "all namespaces: lengths, folders, roots, resolutions, shifts, flags; all scripts; all nights", "why_tests_cant": "tests build one scheduler and run a few nights of it; none varies the start, resolution, folder or the flags and looks at what the surveys then hold", "anchors": ["rubin_scheduler/scheduler/example/example_scheduler.py:55-61", "rubin_scheduler/scheduler/example/example_scheduler.py:64-94", "rubin_scheduler/scheduler/example/example_scheduler.py:97-123", "rubin_scheduler/scheduler/example/example_scheduler.py:168-402", "rubin_scheduler/scheduler/example/example_scheduler.py:405-441"]}
{"id": "C122", "title": "The simple surveys take what is asked with the masks and weights of the manual, calls do not affect one another, and the observatory moves to the next twilight", "statement": "simple_pairs_survey and simple_greedy_survey use the band, exposure, number of snaps, resolution, program, reason and rotator limits asked; all masks, given or standard, with weight zero; rewards given with their weights in order, refused without weights or with a wrong number of them; otherwise m5, footprint, slew, stay and repeat weights as documented whether for one band or two. Pairs are of bandname and bandname2, or of bandname twice without the second; all bands must be mounted; with require_time a pair never runs into twilight; the shadow covers the pair; calls that share a list of masks do not affect one another. simple_field_survey takes each band of the sequence its number of times, masks having weight zero. update_model_observatory_sunset moves to the next -12 or -18 degree sunset (given as integer or float) or the time given, sets the night and mounts the bands chosen there, one of them in use.", "quantifier": "all bands, lists of masks and rewards, weights, times, limits, resolutions, sequences of calls, sorted lists of sunsets, times and band choices", "why_tests_cant": "tests build each survey once with its defaults and check that it runs; none shares masks between calls, looks at weights, uses two bands with the repeat reward or moves from every time", "anchors": ["rubin_scheduler/scheduler/example/simple_examples.py:123-168", "rubin_scheduler/scheduler/example/simple_examples.py:171-236", "rubin_scheduler/scheduler/example/simple_examples.py:239-328", "rubin_scheduler/scheduler/example/simple_examples.py:331-548", "rubin_scheduler/scheduler/example/simple_examples.py:551-700", "rubin_scheduler/scheduler/example/simple_examples.py:703-737", "rubin_scheduler/scheduler/example/simple_examples.py:740-845"]}
{"id": "C123", "title": "Visits from the consolidated database become an array of observations with every column in the right unit", "statement": "load_consdb_visits gives the class of the instrument named or raises. The table (opsim) and the array (obs) of its visits hold for each visit RA, Dec and sky angle given (radians in the array), start and length of the visit, sidereal time in hours, sun and moon and the distances to them at the middle of the exposure, the band given or else the first letter of the filter, the rotator where the relation of that camera between sky angle and the parallactic angle of SMTN-019 puts it, widths of the image in arcsec, and the depth in magnitudes: that of a reference visit for an effective time of 30 s, deeper for longer. Every column of the array is set, the pseudo-parallactic angle among them. Columns the database lacks are worked out where they can be.", "quantifier": "all instruments, tables of visits (columns missing, all null or with nulls, any values), almanacs, sidereal times and separations", "why_tests_cant": "the tests query one night of one camera where they have a token; columns missing, nulls, other cameras and the array made of the table are not looked at", "anchors": ["rubin_scheduler/utils/consdb.py:30-41", "rubin_scheduler/utils/consdb.py:242-251", "rubin_scheduler/utils/consdb.py:419-500", "rubin_scheduler/utils/consdb.py:516-580", "rubin_scheduler/utils/consdb.py:595-674", "rubin_scheduler/utils/consdb.py:700-797", "rubin_scheduler/utils/consdb.py:800-897", "rubin_scheduler/utils/consdb.py:900-1082", "rubin_scheduler/utils/consdb.py:1087-1131", "rubin_scheduler/utils/consdb.py:1208-1246", "rubin_scheduler/utils/consdb.py:1264-1338", "rubin_scheduler/utils/consdb.py:1362-1395", "rubin_scheduler/utils/rotskypos.py:91-187"]}
{"id": "C124", "title": "Short exposures are added behind the visits of fields that lack them, and only there", "statement": "ShortExptDetailer leaves the visits of a list in place and puts n_repeat short ones (its exposure time, one snap, its name as note, same pointing and band) right behind each visit in its band that sees a pixel of the footprint with fewer than nobs short visits this year; behind no other. Time to take the short ones is added to the flush time of all visits of the list. After night_max the list is returned as it came. With time_scale the number asked for grows through the period; a pixel does not get more than nobs.", "quantifier": "all lists of visits, footprints, counts, nights, numbers of repeats and fields of view", "why_tests_cant": "the detailer is not under test: no test constructs it; lists, footprints, counts and nights are unbounded", "anchors": ["rubin_scheduler/scheduler/detailers/short_survey.py:11-107", "rubin_scheduler/scheduler/features/__init__.py:1-2", "rubin_scheduler/scheduler/features/features.py:1-15"]}
{"id": "C125", "title": "Scheduled downtimes are read for the nights of the table and found when they are in progress", "statement": "ScheduledDowntimeData gives one downtime per row of the table, with its activity, from the noon before its night for its number of days, nights counted from the start of the simulation (in the class documentation, 1 January of that year). total_downtime is the number of nights lost. At any time _downtime_status gives the downtime in progress, None if there is none, and exactly those that start later.", "quantifier": "all tables of rows in any order, all years and times", "why_tests_cant": "the tests read the one shipped table and check two rows; the lookup is not tested, nor other tables or years", "anchors": ["rubin_scheduler/site_models/scheduled_downtime_data.py:34-131"]}
{"id": "C126", "title": "Downloads end with the expected data and versions, however they were interrupted before", "statement": "download_rubin_data gives each directory asked for the contents of the archive expected: always with force, where versions.txt says otherwise with update, else only where there is none; other directories are not touched and versions.txt lists what is there. A download that breaks off is resumed, by up to ten attempts and by later calls, and the file unpacked is always exactly that of the server. A call that fails leaves data and versions as they were or fit to be repaired by the next. With print_versions_only nothing changes and the code is 0 exactly if the data are those expected. The command scheduler_download_data does this for the dictionary given and ends with a status that tells success. versions.txt is read as it was written.", "quantifier": "all servers (refusals, early ends, broken connections, sizes told or not, at any byte), disks, dictionaries, options and sequences of calls", "why_tests_cant": "no test downloads anything; breaks at any byte of any attempt over several calls are far too many to try", "anchors": ["rubin_scheduler/data/scheduler_download_data.py:18-97", "rubin_scheduler/data/scheduler_download_data.py:100-334", "rubin_scheduler/data/data_sets.py:23-45", "pyproject.toml:53-55"]}
{"id": "C127", "title": "The tables of rewards tell what each survey was worth and which was chosen", "statement": "make_reward_df of a survey has one row for each basis function, in order, with a label of its own, its class and weight, the greatest reward and unmasked area within the region of the survey, whether it lets the survey through, and the reward accumulated up to it; the last of these is the reward of the survey, and from a row that is not feasible on it is -inf. make_reward_df of the scheduler shows every survey with its place, label, class and the reward by which it is chosen, so that the table kept by keep_rewards shows the survey chosen; keeping it does not change the choice. surveys_df shows the rewards of the lists evaluated and marks the survey chosen. reward_changes gives the greatest reward of each basis function. Asking for a table changes nothing.", "quantifier": "all basis functions, weights, regions, masks and conditions, all lists of surveys, all rewards including NaN and infinities", "why_tests_cant": "the tests check that a table is returned for one scheduler; masks, NaN, ties, empty surveys and equal labels combine without bound", "anchors": ["rubin_scheduler/scheduler/surveys/base_survey.py:152-164", "rubin_scheduler/scheduler/surveys/base_survey.py:330-492", "rubin_scheduler/scheduler/schedulers/core_scheduler.py:402-408", "rubin_scheduler/scheduler/schedulers/core_scheduler.py:624-707", "rubin_scheduler/scheduler/basis_functions/basis_functions.py:175-191", "rubin_scheduler/scheduler/surveys/field_survey.py:398-431"]}
{"id": "C128", "title": "The sky files listed by the server are downloaded and found by the model", "statement": "rs_download_sky stores in the directory skybrightness_pre of the data directory each file ending with .h5 that the page at url_base links to, as the server has it: those missing, and with force all. Nothing else is touched, a call that fails leaves each file as it was or complete, and calls repeated until one returns give the whole set; a further call changes nothing. SkyModelPre then reads from the names which times each file covers, and takes for a time, of the files that cover it, the one that begins last; for a time in no file it raises.", "quantifier": "all pages (lists of tags), servers, contents, disks, sequences of calls, names and times", "why_tests_cant": "no test downloads; the directory is only read as shipped, so pages, failures between files, names and overlaps of any kind are not tried", "anchors": ["rubin_scheduler/data/rs_download_sky.py:12-50", "rubin_scheduler/data/rs_download_sky.py:53-98", "rubin_scheduler/skybrightness_pre/sky_model_pre.py:474-497", "rubin_scheduler/skybrightness_pre/sky_model_pre.py:213-227"]}
{"id": "C129", "title": "The table of a pointings survey explains its reward", "statement": "PointingsSurvey.make_reward_df gives for any conditions one row for each weight, in their order: the greatest weighted value of that method, how many pointings have a finite one, and whether any has. With accum each row also has the greatest sum so far and the number of pointings left, which never rises; the last is the reward that calc_reward_function gives. A row that is not feasible means that the survey is not. reward_changes lists the greatest value of each method.", "quantifier": "all pointings, weights, reports and conditions, before or after any reward", "why_tests_cant": "tests call the table once after a reward for the same conditions; other orders of calls, other conditions and reports in between are not tried", "anchors": ["rubin_scheduler/scheduler/surveys/pointings_survey.py:337-395", "rubin_scheduler/scheduler/surveys/pointings_survey.py:397-408", "rubin_scheduler/scheduler/surveys/pointings_survey.py:410-426", "rubin_scheduler/scheduler/surveys/pointings_survey.py:156-180"]}
{"id": "C130", "title": "A site has the parameters given and the defaults of its name, in consistent units, and equality compares them", "statement": "Site keeps every parameter that is given; those not given are the values of the telescope for the names LSST and AuxTel and None for any other name. Radians and Kelvin always agree with degrees and centigrade, so the errors about one without the other never occur. The warning names exactly the parameters that are None; there is none for the two telescopes, and to_earth_location works exactly when longitude, latitude and height are not None. Two sites are equal exactly when their names and all parameters are; the comparison is reflexive, symmetric and transitive and answers for any object.", "quantifier": "all names and all parameters given or left out", "why_tests_cant": "tests build a few sites; all combinations of given and missing values, NaN and other objects are not tried", "anchors": ["rubin_scheduler/utils/site.py:28-40", "rubin_scheduler/utils/site.py:54-63", "rubin_scheduler/utils/site.py:94-206", "rubin_scheduler/utils/site.py:208-211", "rubin_scheduler/utils/site.py:213-227"]}
{"id": "C131", "title": "The path of a spectrum is found by its name with a fixed precedence", "statement": "SpecMap[name] leaves out blanks around the name and returns the path given for it in file_dict; else the directory of the first matching pattern of dir_dict in text order, joined with the name ending in .gz; else that of the class, of which never two match; else KeyError. name in map is true exactly when the lookup gives a path. map[key] = path is found under key afterwards and leaves all other names as they were; maps are independent of each other and of the caller's dictionaries. Every path of default_spec_map ends in .gz.", "quantifier": "all names, dictionaries, patterns and sequences of maps made and changed", "why_tests_cant": "tests look up a few names; precedence for all names, exclusion of the patterns and sharing are not tried", "anchors": ["rubin_scheduler/utils/file_maps.py:8-14", "rubin_scheduler/utils/file_maps.py:16-49", "rubin_scheduler/utils/file_maps.py:51-52", "rubin_scheduler/utils/file_maps.py:54-69", "rubin_scheduler/utils/file_maps.py:71-83", "rubin_scheduler/utils/file_maps.py:86-127"]}
{"id": "C132", "title": "The table of the survey that revisits pairs shows the reward it would give", "statement": "LongGapSurvey.make_reward_df changes nothing and shows in its one row the reward that calc_reward_function gives for the same conditions, also as the accumulated one, and raises exactly when that does. It shows the same before and after the reward is computed. Feasible is shown exactly when the survey would be observed, that is when the reward is above the least float.", "quantifier": "all states reached, nights and conditions, pair surveys and scripts", "why_tests_cant": "the table of this survey is not compared in any test with the reward or with what is observed", "anchors": ["rubin_scheduler/scheduler/surveys/long_gap_survey.py:216-222", "rubin_scheduler/scheduler/surveys/long_gap_survey.py:264-308"]}
{"id": "C133", "title": "A survey of an altitude and azimuth observes that place whenever it is asked", "statement": "Every visit that FieldAltAzSurvey.generate_observations returns has the altitude and azimuth of the survey, and the RA and dec that this place has at the time of the conditions, which convert back to it. The visits are those of the sequence in mounted bands, in order. This holds at every time, after any other surveys have been built, and the arrays of the caller stay as they were. A list of detailers without AltAz2RaDecDetailer is refused.", "quantifier": "all places above the horizon or below but the zenith, sites, times, sequences, detailers that do not move visits, any surveys built in any order", "why_tests_cant": "tests build one survey from bands and check one time; arrays given to several surveys and the inverse at all places are not tried", "anchors": ["rubin_scheduler/scheduler/surveys/field_survey.py:140-170", "rubin_scheduler/scheduler/surveys/field_survey.py:247-260", "rubin_scheduler/scheduler/surveys/field_survey.py:314-395", "rubin_scheduler/scheduler/detailers/detailer.py:509-523", "rubin_scheduler/scheduler/surveys/base_survey.py:309-314"]}
{"id": "C134", "title": "The wind masks the sky it blows from, and rewards the sky across it", "statement": "With a wind faster than the limit, MaskDirectWindBasisFunction masks exactly the azimuths within arccos(limit/speed) of the direction the wind comes from, modulo whole turns; with a wind up to the limit, or none, it masks nothing, and never sky a quarter turn or more away. A higher limit masks less. AvoidDirectWind is that mask with the reward of WindPressureBasisFunction, which is zero for a wind below its minimum, never above zero, and best away from the wind; limits in the wrong order are refused. The wind of get_ideal_model_observatory comes from the direction asked for, in degrees.", "quantifier": "all wind speeds, directions, azimuths, limits and whole turns", "why_tests_cant": "tests give one wind and check that some pixels are masked; the exact sector, the sky behind the wind and the units of the direction are not checked", "anchors": ["rubin_scheduler/scheduler/features/conditions.py:552-558", "rubin_scheduler/scheduler/basis_functions/mask_basis_funcs.py:31-57", "rubin_scheduler/scheduler/basis_functions/basis_functions.py:1358-1431", "rubin_scheduler/site_models/wind_data.py:8-45", "rubin_scheduler/scheduler/example/simple_examples.py:32-120", "rubin_scheduler/scheduler/model_observatory/model_observatory.py:493-496"]}
{"id": "C135", "title": "The grid of the deep drilling fields is evenly spaced and true at night, and only nights are scheduled from it", "statement": "generate_ddf_grid has a row for every step of delta_t minutes from the start before the end, in columns with different names. Each row has the sun, the moon and the twilight of its time, and in the dark the airmass and g sky of every location with the depth they give; with the sun above the limit, or at a time the sky model refuses, no location has a finite depth. The part within the dates of a survey is evenly spaced, and every time that optimize_ddf_times takes from it is dark, with the field up, deep enough and the moon within the limits at all rows through the sequence.", "quantifier": "all starts, steps, lengths, sky models, limits of the sun, locations, dates of a survey and settings of a sequence", "why_tests_cant": "the grid takes hours and rubin_sim to make, tests read the stored file; rows where the sky model raises are not looked at", "anchors": ["rubin_scheduler/scheduler/surveys/generate_ddf_grid.py:16-130", "rubin_scheduler/scheduler/example/lsst_ddf_presched.py:563-577", "rubin_scheduler/scheduler/example/lsst_ddf_presched.py:211-467"]}
{"id": "C136", "title": "Restoring puts the scheduler and the observatory back to where a run was after a visit", "statement": "restore_scheduler with the table of a run reports exactly the visits up to observation_id to the scheduler, in order, and puts the observatory at the time, visit number, place on the sky, rotation, accumulated azimuth and band it had after the last of them, with the bands the band scheduler mounts that night; the run then goes on as it would have. Target ids handed out afterwards are above all restored and start at that of the next visit in the table. What cannot be restored is refused with nothing changed.", "quantifier": "all tables of visits, observation ids, schedulers, surveys, observatories, band schedulers, slew times, and both ways of reporting", "why_tests_cant": "the test restores one run, in the gap between two nights, where the telescope parks anyway", "anchors": ["rubin_scheduler/scheduler/utils/utils.py:270-346", "rubin_scheduler/scheduler/model_observatory/kinem_model.py:362-386", "rubin_scheduler/scheduler/model_observatory/kinem_model.py:802-887", "rubin_scheduler/scheduler/model_observatory/model_observatory.py:714-795"]}
{"id": "C137", "title": "Conditions set together are the conditions read, with nothing left from another time", "statement": "set_maintel_info, set_auxtel_info and set_attrs leave in every attribute what was given for it (maps in the resolution of the conditions), in any order of the arguments; current_band and mounted_bands are the bands of the filters given, the same as the scheduler derives from their names; every condition not given is empty, whatever was set before; a change of mjd resets all attributes.", "quantifier": "all values of the arguments, further keyword arguments, earlier states of the conditions, orders of the keywords, maps and change of resolution, names of filters", "why_tests_cant": "the tests set a few attributes on a new object; what is lost or left over depends on order and on everything set before", "anchors": ["rubin_scheduler/scheduler/features/conditions.py:245-353", "rubin_scheduler/scheduler/features/conditions.py:358-410", "rubin_scheduler/scheduler/features/conditions.py:479-530", "rubin_scheduler/scheduler/features/conditions.py:787-800", "rubin_scheduler/scheduler/features/conditions.py:931-957", "rubin_scheduler/scheduler/schedulers/core_scheduler.py:173-176"]}
{"id": "C138", "title": "Positions on the sky are ordered by their distances on the sky, wherever longitudes are counted from", "statement": "order_observations returns every position exactly once, in a route found from distances that are those on the sky but for a factor that tends to one as the field shrinks; the order does not change when all longitudes are turned by the same angle or when whole turns are added to any of them; the mean azimuth lies among the azimuths, across the wrap as elsewhere. This holds for any positions on the sky.", "quantifier": "all lists of positions (reals), both values of optimize, any Qhull, any rounding of the numbers compared, any field radius below a quarter turn", "why_tests_cant": "the tests order a few points near one place; the wrap, the rest of the sky and the size of the distortion are not met", "anchors": ["rubin_scheduler/scheduler/utils/tsp.py:26-76", "rubin_scheduler/scheduler/utils/utils.py:128-148", "rubin_scheduler/scheduler/utils/utils.py:370-377"]}
{"id": "C139", "title": "Turning the tessellation keeps it whole: a rotation of the sphere, always from the first fields, with every pixel at its nearest field", "statement": "Dithering a survey turns its fields as one rigid body: the angles between fields and their handedness stay, the sphere stays covered to the same radius, right ascensions and declinations are in range, and the pole can go anywhere with evenly spread declinations. A turn depends on the night (or the count) alone, not on turns before. Each pixel goes to a field no other is nearer than; a target of opportunity is tiled with the fields nearest to the centres and corners of its pixels, each once, so each of those is within the covering radius of a pointing. Turning by zero leaves the fields in place, and an unknown camera is refused with a ValueError.", "quantifier": "all tessellations, angles (reals), indices, pixel positions, sequences of turns", "why_tests_cant": "tests look at a few fields of the stored tessellation for a seed; rigidity, covering and independence of history are for all turns", "anchors": ["rubin_scheduler/scheduler/surveys/base_survey.py:565-580", "rubin_scheduler/scheduler/surveys/base_survey.py:609-619", "rubin_scheduler/scheduler/surveys/base_survey.py:646-710", "rubin_scheduler/scheduler/surveys/too_scripted_surveys.py:192-222", "rubin_scheduler/scheduler/surveys/too_scripted_surveys.py:267-339", "rubin_scheduler/scheduler/utils/utils.py:66-96"]}
{"id": "C140", "title": "The maps and tables a scheduler shows are those of the survey and conditions asked for, none lost under a shared name", "statement": "get_healpix_maps gives one map per band of the sky, with values that stand for none made nan, and one per basis function of the survey that gives a map in the conditions asked for, with its values, whatever classes and bands they share; nothing else, no name twice. get_basis_functions gives the same functions. Without an index it is the latest survey chosen; places may be counted from the end. surveys_df has a row for each survey of a tier, marks the latest choice and no other, shows the best reward, and none for tiers not reached. This holds for every tier and at all times.", "quantifier": "all survey lists, indices, conditions, basis functions and values they give", "why_tests_cant": "tests call these on one scheduler; names that clash, values that stand for none and indices out of range are not met", "anchors": ["rubin_scheduler/scheduler/schedulers/core_scheduler.py:455-533", "rubin_scheduler/scheduler/schedulers/core_scheduler.py:158-161", "rubin_scheduler/scheduler/schedulers/core_scheduler.py:623-664", "rubin_scheduler/scheduler/basis_functions/basis_functions.py:175-192"]}
{"id": "C141", "title": "Target depths are those of the dark sky at the altitude asked for", "statement": "calc_target_m5s(alt) gives for each band of the dark sky one depth: that of the sky averaged over the pixels which cross the meridian at that altitude, in bins of five degrees with a straight line between their middles, seen through the air at that altitude. It lies within the values of those pixels, is deeper higher up, for sharper images and for longer exposures, is missing only where a bin has no pixel or a missing one, and a visit under those conditions keeps its exposure time. This holds for every altitude.", "quantifier": "all altitudes, latitudes, dark skies, seeings and exposure times", "why_tests_cant": "tests compare the result at the default altitude with stored numbers; pixels south of the zenith and low altitudes are not looked at", "anchors": ["rubin_scheduler/scheduler/detailers/vary_exptime.py:12-53"]}
{"id": "C142", "title": "Positions of sun, moon and planets pass through the table and do not jump where longitudes start again", "statement": "get_sun_moon_positions and get_planet_positions give, at the time of a row of the table, the position in that row; longitudes are between 0 and a full turn, do not depend on where the count of longitudes begins or on full turns in the table, and between two rows lie on the way from one to the other, going evenly; altitudes and declinations lie between those of the rows, phases between 0 and 100. A time outside the table is refused.", "quantifier": "all tables, times and kinds of interpolation", "why_tests_cant": "tests compare a few times with an ephemeris; the wrap of every longitude and gaps in the table are not met", "anchors": ["rubin_scheduler/site_models/almanac.py:30-83", "rubin_scheduler/site_models/almanac.py:177-202"]}
{"id": "C143", "title": "A raster sort visits every row once and goes up one column and down the next", "statement": "raster_sort(rows, order=[x, y], xbin) returns every index exactly once. Rows are grouped in strips of x that are xbin wide and begin half a strip left of the least x; the order takes the strips from left to right, the first with y rising, the next with y falling, and so on.", "quantifier": "all arrays and all positive bin sizes", "why_tests_cant": "a test sorts one regular grid; uneven columns and empty strips are not met", "anchors": ["rubin_scheduler/scheduler/utils/utils.py:389-436"]}
{"id": "C144", "title": "A warm start replays every visit once in order of time, whatever the order of the table", "statement": "warm_start(scheduler, observations, mjd_key) calls add_observation once for every row, in the order of the named time; the result does not depend on the order of the rows given, also for rows with the same time. Starting from a table and then from a later one is the same as starting from both together. The caller's array is left in that order; a visit that raises ends the call, with those before it added. A name that is not a column is refused and nothing is changed.", "quantifier": "all schedulers, tables and keys", "why_tests_cant": "a test replays one table that is already in order; equal times and all orders of rows are not met", "anchors": ["rubin_scheduler/scheduler/utils/utils.py:871-887"]}
{"id": "C145", "title": "A shared array shows every process what was last written; copies and the original stay as they were", "statement": "SharedNumpyArray(a): read() in any process gives a view which shows at each place what was last written there through any view in any process, and a elsewhere; copy() and the caller's array change only when written themselves. unlink() in one process leaves the views of the others; after it sending the object or a second unlink raises, and read() or copy() give no data and the views of that process are not used.", "quantifier": "all arrays and all sequences of attach, read, copy, write and unlink by any number of processes", "why_tests_cant": "the test reads one array once in one process", "anchors": ["rubin_scheduler/utils/parallel_utils.py:8-43"]}
{"id": "C146", "title": "The gates of dd_bfs keep a deep drilling field dark, in its hour angles, within its share and spaced", "statement": "A DeepDrillingSurvey given dd_bfs(RA, dec, name, ha_limits, frac_total, aggressive_frac, delays, time_needed) is feasible only when from now until time_needed minutes later there is no twilight and no scheduled visit, the field is within its hour angle limits, the moon is down, and the visits with its name are no more than frac_total of all. A field with a share up to aggressive_frac waits delays[1] after its last visit, above it delays[2]. So along any run its visits are at most frac_total of all and one sequence. Past the meridian nothing more is asked. It answers also before the first visit. aggressive_frac above frac_total, or not three delays, are refused.", "quantifier": "all arguments, conditions and histories of visits, in runs of any length shared with other surveys", "why_tests_cant": "a test sees one history and one night; the share and the spacing are about every run", "anchors": ["rubin_scheduler/scheduler/surveys/dd_surveys.py:182-222", "rubin_scheduler/scheduler/basis_functions/feasibility_funcs.py:536-543", "rubin_scheduler/scheduler/basis_functions/feasibility_funcs.py:462-504", "rubin_scheduler/scheduler/basis_functions/feasibility_funcs.py:586-679"]}
{"id": "C147", "title": "With the offsets of create_season_offset the season of a pixel changes when the sun passes it", "statement": "offset = create_season_offset(nside, sun_ra): every value is in (-730.5, -365.25]. season_calc(night, offset) gives for each pixel the number of passages of the mean sun over its RA since night 0, less 2, where the mean sun is at sun_ra at night 0 and goes round in 365.25 nights; so between two nights it goes up exactly when the sun passes the pixel and never down, and at night 0 all pixels but those under the sun have -2. Whole turns of the RA of a pixel or of the sun change nothing.", "quantifier": "all nsides, positions of the sun and nights", "why_tests_cant": "no test calls it; a check of a few pixels and nights does not show that the changes are at conjunction for all", "anchors": ["rubin_scheduler/scheduler/utils/utils.py:931-941", "rubin_scheduler/scheduler/utils/utils.py:889-928"]}
{"id": "C148", "title": "sims_clean_up empties every cache and closes what they held once", "statement": "sims_clean_up() leaves every dict and list of its targets empty and calls close() once for each object held that has one, cache after cache, the last put in first; an AttributeError from close() is passed over. Any other exception passes on at once: caches before are empty, the object that failed and those above it are gone from theirs, the rest is untouched, so calling again goes on from there and in the end every object was closed once. A second call after that closes nothing.", "quantifier": "all lists of targets, all contents, every pattern of failures", "why_tests_cant": "a test cleans one or two caches whose close() works; it cannot try every pattern of failures", "anchors": ["rubin_scheduler/utils/code_utilities.py:9-53"]}
{"id": "C149", "title": "A simple field survey starts only between the twilights and more than half an hour after its last visit", "statement": "With simple_rewards_field_survey(name) a field survey is feasible exactly when the time is between the evening and morning twilight of its sun_alt_limit and every visit of the field is more than 30 minutes back; so in any run its sequences are more than 30 minutes apart. Visits of other fields make no difference, and a sequence that is asked for is over before twilight.", "quantifier": "all names, conditions and histories, in runs of any length shared with other surveys", "why_tests_cant": "a test checks one field alone; the spacing is about every run, and the names of other fields matter", "anchors": ["rubin_scheduler/scheduler/example/simple_examples.py:703-737", "rubin_scheduler/scheduler/example/simple_examples.py:740-845"]}
{"id": "C150", "title": "The norm factor makes the goals of one visit add up to the pixels it covers, at any resolution", "statement": "calc_norm_factor(goal_dict, radius) times the sum of all positive goals in all maps is the area of a field of view of that radius over the area of a pixel. It does not depend on the order of the maps, on pixels that are not positive, or on the resolution of the maps; goals k times as large give a factor k times as small. Without maps, or with maps that are no full sky or of different resolutions, it is refused. calc_norm_factor_array gives the same for the columns of an array.", "quantifier": "all dictionaries of goal maps and all radii", "why_tests_cant": "no test calls it; independence of order and resolution is about all maps", "anchors": ["rubin_scheduler/scheduler/utils/footprints.py:578-629"]}
{"id": "C151", "title": "Faster limits and higher performance percentages never make a slew longer", "statement": "jerk_time over any non-negative distance does not get longer when the positive limits on speed, acceleration and jerk are each raised or kept, also across changes of motion profile and when the jerk limit is dropped. It does not depend on the unit of angle, and never beats the distance at top speed. tma_movement and rotator_movement therefore never slow an axis down when the (positive) percentage is raised; every limit is that share of the full one between 5 and 125 percent except the speed in azimuth, which stays at 7 degrees a second from 70 percent on; from 125 percent nothing changes; the default percentages give the limits setup_telescope and setup_camera take by default.", "quantifier": "all positive limits, all non-negative distances, all positive percentages", "why_tests_cant": "monotonicity in three limits over six motion profiles is about all pairs of limits and all distances", "anchors": ["rubin_scheduler/scheduler/model_observatory/kinem_model.py:24-87", "rubin_scheduler/scheduler/model_observatory/kinem_model.py:218-222", "rubin_scheduler/scheduler/model_observatory/kinem_model.py:326-336", "rubin_scheduler/scheduler/model_observatory/jerk.py:6-192"]}
{"id": "C152", "title": "The slew duration is the shortest one within the limits", "statement": "For positive limits, jerk_time(distance, v, a, j) is the least duration of any motion from rest to rest over that distance whose speed, acceleration and jerk stay within the limits: some motion takes exactly that long and none takes less. Without a jerk limit no motion whose speed changes by at most a per unit of time takes less. A slew over the sum of two distances never takes longer than the two one after the other.", "quantifier": "all distances and limits; all motions, as functions of time or as any list of phases of constant jerk", "why_tests_cant": "a test can compare with a few other motions, not with all of them", "anchors": ["rubin_scheduler/scheduler/model_observatory/jerk.py:6-192"]}
{"id": "C153", "title": "A telescope with faster axes takes no longer for any slew", "statement": "Two KinemModels that differ only in the speed, acceleration and jerk limits of mount, rotator and dome, the second with limits at least as high: slew_times from the same state to the same target is refused by both or by neither, leaves both in the same state, and takes the second no longer, with all overheads, band changes, settling and optics included. Raising the percentages of tma_movement and rotator_movement therefore never makes a slew longer. lax_dome=True (dome creep) never makes the dome slower than lax_dome=False.", "quantifier": "all configurations with positive limits, all states, all targets and options of one slew", "why_tests_cant": "tests compare single slews with fixed numbers; the claim is about all pairs of configurations", "anchors": ["rubin_scheduler/scheduler/model_observatory/kinem_model.py:510-762", "rubin_scheduler/scheduler/model_observatory/kinem_model.py:24-87", "rubin_scheduler/scheduler/model_observatory/kinem_model.py:764-800"]}
{"id": "C154", "title": "Slew times of several targets at once are those of each target alone", "statement": "slew_times with arrays of targets (update_tracking=False) returns for every target the time it returns for that target alone, independent of the other targets and of their order, in the band in use and in another band alike, with and without rotator angles and for both ways of computing the band change time.", "quantifier": "all configurations, states, options and lists of targets", "why_tests_cant": "tests call it with arrays in the band in use; independence of the other targets is about all lists", "anchors": ["rubin_scheduler/scheduler/model_observatory/kinem_model.py:397-762"]}
{"id": "C155", "title": "A simulation comes to an end", "statement": "sim_runner returns (or raises what the scheduler or the observatory raises) for every scheduler and observatory: the loop stops after a number of requests bounded by the length of the simulation divided by the least time by which a visit, a skip after a refused visit or the step without targets moves the clock.", "quantifier": "all schedulers, observatories, start and end times, step lengths, overheads, array sizes and options", "why_tests_cant": "a test that never returns is only a test that is slow; the bound is about all schedulers and all runs", "anchors": ["rubin_scheduler/scheduler/sim_runner.py:88-245", "rubin_scheduler/scheduler/model_observatory/model_observatory.py:600-646", "rubin_scheduler/scheduler/model_observatory/model_observatory.py:714-795"]}
{"id": "C156", "title": "The visits returned by a whole simulation follow one another", "statement": "When sim_runner with a model observatory returns (slew and visit times, step_none and the extra time after a visit not negative), the table it returns is exactly the visits the observatory took: ids count up by one from the observatory's counter, every slew begins after the visit before has ended and not before the start nor after the end of the simulation, every visit ends at a clear time inside a night and outside the downtimes, and its night is that of its beginning; and it does return when visits and step_none are not shorter than some positive time.", "quantifier": "all schedulers, band schedulers, kinematic models, nights, downtimes, cloud records, start and end times, limits and options", "why_tests_cant": "tests check one simulated night; the claim is about all schedulers and weather over any number of nights", "anchors": ["rubin_scheduler/scheduler/sim_runner.py:88-245", "rubin_scheduler/scheduler/model_observatory/model_observatory.py:600-646", "rubin_scheduler/scheduler/model_observatory/model_observatory.py:714-795"]}
{"id": "C157", "title": "Recorded rewards lead from every visit to the table it was chosen from", "statement": "sim_runner(record_rewards=True) takes the same visits as without, and returns besides: for every visit (the last at its time) an entry under its mjd with the stamp of the queue fill the scheduler had when the visit was offered, no other entries, and one table of rewards for every stamp entered, in order and none twice.", "quantifier": "all schedulers with keep_rewards or without, observatories and runs", "why_tests_cant": "tests record rewards along one night with a scheduler that keeps them", "anchors": ["rubin_scheduler/scheduler/sim_runner.py:112-114", "rubin_scheduler/scheduler/sim_runner.py:170-173", "rubin_scheduler/scheduler/sim_runner.py:203-204", "rubin_scheduler/scheduler/sim_runner.py:288-310", "rubin_scheduler/scheduler/schedulers/core_scheduler.py:401-409"]}
{"id": "C158", "title": "A visit of several exposures takes the time of its exposures and warns when the shutter is too slow for it", "statement": "The visit time of n exposures is n times that of a visit of one exposure with its share of the exposure time plus n-1 readouts, and never less than the exposure time. Exposures of one visit that begin closer than shutter_2motion_min_time are warned about.", "quantifier": "all configurations, states, visits and numbers of exposures", "why_tests_cant": "tests observe visits of one or two exposures with the default shutter", "anchors": ["rubin_scheduler/scheduler/model_observatory/kinem_model.py:802-811", "rubin_scheduler/scheduler/model_observatory/kinem_model.py:851-861"]}
{"id": "C159", "title": "A PlanAheadSurvey offers its region only around the time it planned", "statement": "A PlanAheadSurvey offers a reward only in feasible conditions and within delta_mjd_tol of the time planned at an earlier call of that night since which nothing was taken from it: the next passage of the meridian of the mean of the pixels in season, clear of the moon and without a visit for the cadence, or the time of that call if the mean has passed it, provided their area is large enough. The plan is kept for the night until observations are taken; then the next feasible call plans afresh.", "quantifier": "all parameters, sequences of reward and observation calls and conditions", "why_tests_cant": "no test makes one, and the plan depends on the whole sequence of calls", "anchors": ["rubin_scheduler/scheduler/surveys/plan_night_survey.py:35-62", "rubin_scheduler/scheduler/surveys/plan_night_survey.py:64-100", "rubin_scheduler/scheduler/surveys/plan_night_survey.py:102-120", "rubin_scheduler/scheduler/surveys/plan_night_survey.py:122-130", "rubin_scheduler/scheduler/features/features.py:1-15"]}
{"id": "C160", "title": "Rewards of fields in season follow the sun", "statement": "CadenceInSeasonBasisFunction is 1 exactly in the driven pixels within season_span of the point opposite the sun whose last visit is cadence days back or more, 0 elsewhere; SeasonCoverageBasisFunction is 1 exactly in the pixels of its footprint that lack visits this season once season_frac_start of it is over, 0 elsewhere; CadenceEnhanceTrapezoidBasisFunction is its curve of the days since the last visit where it applies within season_limit of that point, 0 elsewhere.", "quantifier": "all parameters, sun positions, seasons and skies", "why_tests_cant": "no test calls the three with conditions, and the angle has to be right across the turn for every sun", "anchors": ["rubin_scheduler/scheduler/basis_functions/basis_functions.py:506-551", "rubin_scheduler/scheduler/basis_functions/basis_functions.py:554-638", "rubin_scheduler/scheduler/basis_functions/basis_functions.py:1083-1176", "rubin_scheduler/scheduler/features/conditions.py:240-360"]}
{"id": "C161", "title": "What is known of a run is written beside its visits", "statement": "When sim_runner is given a filename, a run with visits is written there with an info table of the date, the host, the version of the package, every data version as scheduler_download_data recorded it, and every entry of extra_info, in that order and complete; the visits are returned.", "quantifier": "all recorded data versions, extra information and runs", "why_tests_cant": "tests write a run with one data directory and no extra information", "anchors": ["rubin_scheduler/data/data_sets.py:23-45", "rubin_scheduler/scheduler/model_observatory/model_observatory.py:357-370", "rubin_scheduler/scheduler/utils/utils.py:825-856", "rubin_scheduler/scheduler/sim_runner.py:277-310"]}
{"id": "C162", "title": "Reading field positions gives a field for every point of the file", "statement": "read_fields returns one ra and one dec for every three numbers of the file, in the order of the file and in the direction of the point they give; a file whose numbers do not make whole points is refused.", "quantifier": "all files of numbers, one to a line", "why_tests_cant": "tests read the one file that comes with the package", "anchors": ["rubin_scheduler/site_models/read_fields.py:10-50", "rubin_scheduler/utils/coordinate_transformations.py:283-306"]}
