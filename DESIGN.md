# Formal model of rubin_scheduler: design

Source under study: `lsst/rubin_scheduler`, checked out in `/repo` (Python). The
model is written in Rocq (Coq 8.16.1) under `rocq/theories`, namespace `Verif`.

## Trusted base

* Coq's kernel (and `coqchk`).
* The assumptions printed by `Print Assumptions` under every theorem in the
  `Props*.v` files. Files working over exact rationals (`Q`), integers and lists
  are closed under the global context. Theorems over the real numbers (some or all
  of those of C22-C28, C41, C47-C50, C74, C77, C91, C98-C102, C104, C106-C115, C118,
  C121, C123, C133, C134, C136, C138, C139, C141, C142, C150-C154, C158, C162) list
  axioms of Coq's standard `Reals` library, these and no others:
  `ClassicalDedekindReals.sig_not_dec`, `ClassicalDedekindReals.sig_forall_dec`,
  `FunctionalExtensionality.functional_extensionality_dep` and
  `Classical_Prop.classic`.
* The reading of the Python text. Each definition cites the file and lines it
  models. The Python code was never run.

No axioms, parameters or admitted proofs are added. External behaviour (the
survey reward functions, cloud data, almanac tables, healpix geometry, numpy
random numbers) enters as universally quantified function arguments (section
variables, generalised when the section closes), so theorems hold for every
such behaviour unless a hypothesis says otherwise.

### Numbers

* Times, rewards and angles that the code only adds, subtracts, scales and
  compares are exact rationals (`Q`) or integers (`Z`). Floating point rounding
  is **not** modelled.
* Rewards are "extended" numbers: NaN, -inf, finite, +inf.
* `jerk_time`, angles and slew geometry use Coq's real numbers.

### Exceptions

Python exceptions are values: a function which may raise returns `Raise e` or
`Ok v`. A theorem about normal results says nothing about raised errors unless
it mentions them.

## How each property is treated

The table names what is modelled and how the property is proved. "Refuted" means
the faithful model violates the property as a user would expect it: the theorem
`..._refuted` exhibits a concrete witness, and a guarded positive theorem states
the part that does hold.

| Id | Model | Method |
|----|-------|--------|
| C01 | core scheduler state machine over arbitrary surveys | invariant over operation lists |
| C02 | `_fill_queue` over tiers of reward arrays | spec by "first tier / first argmax", induction on lists |
| C03 | same state machine | invariant over operation lists |
| C04 | queue manager | refinement to "first outstanding entry" |
| C05 | queue manager with rounded comparison | refuted; proved when no flush time ties with the current time |
| C06 | core scheduler | refuted (argument ignored), with the true relational statement |
| C07 | core scheduler request | case analysis, iff |
| C08 | ToO part of `update_conditions` | invariant over update sequences |
| C09 | scheduled list | Permutation + sortedness |
| C10 | queue manager | equality of folds |
| C11 | queue manager fan-out | refuted for an empty queue; proved otherwise |
| C12 | flattening | equality with a comprehension spec |
| C13 | `survey_labels` on survey names (`Labels.v`) | refuted; the exact condition under which labels are distinct is proved as an equivalence |
| C14 | IntRounded | refuted for arrays; proved for single values and for arrays without near ties |
| C15-C17 | simulation loop over abstract scheduler/observatory | trace invariants; C17 refuted |
| C18-C21 | model observatory | trace invariants, search correctness, interval merging |
| C22 | `jerk_time`, `acc_time` over reals (`Jerk.v`) | real analysis: monotone, continuous, realised by an explicit motion within the limits |
| C23 | `slew_times` azimuth choice, cumulative azimuth (`Kinem.v`) | invariant over operation lists; shortest allowed move; refuted for ranges below a full turn |
| C24 | `slew_times`, `observe` | case analysis, and an invariant showing nothing raises over observe/park/mount histories |
| C25 | same | refuted by tracking drift; exact identity including the drift by induction |
| C26 | open loop term of `slew_times` | refuted; closed form of what is added |
| C27 | `observe`, `shutter_stall`, `visit_time` | invariant "overhead belongs to the last visit" |
| C28 | `smallest_signed_angle` (`Angles.v`) | real arithmetic |
| C29-C32, C51, C52 | `ScriptedSurvey`: script, window, limits, cache, reports (`Script.v`) | invariants over call histories, selection equals its declarative spec; C30-C32, C51, C52 refuted with guarded positive theorems (C52 has none) |
| C34 | Surveys.v: DeepDrillingSurvey constructor, string sequences, generate_observations_rough; the argsort is a parameter, any sort by band | list specs; `C34_mounted_loaded_first_flush`, counts, determinism; order refuted |
| C37 | Feat.v: every survey feature as a pair of update functions over a list of visits with their pixels | invariant between history and state for single and batch steps, lifted to all feed sequences; refutations by witness |
| C38 | Bands.v: the four band swap schedulers, numpy bisection (`Bisect.v`) | bisection finds the partition point; dictionary and sort lemmas; induction over call sequences |
| C39 | Tsp.v: route length, hulls (Qhull external), merging, three-opt and the optimisation loop | permutation and rotation lemmas, running minimum; the loop ends because lengths fall through finitely many routes |
| C40 | Util.v season_calc over exact rationals with IntRounded comparisons | floor arithmetic, IntRounded exact on whole numbers |
| C43 | Summit.v: SummitWrapper over the CoreScheduler model (requests, reports, updates, flushes, replay) | invariant over all interleavings; four counterexamples |
| C44 | simulation loop | trace invariant |
| C45 | `observe` | refuted; proved for downtimes at least as long as slew plus visit |
| C46 | `run` over a recording wrapper `recW` of arbitrary survey behaviour | proved by induction over the history |
| C47 | `mount_bands`, `slew_times`, `park` | invariant over operation lists |
| C48 | `wrap_ra_dec` | trigonometry |
| C49 | `observe` twice | evaluation of the slew at zero distance after any history |
| C50 | `slew_times` | lower bounds on each maximum and sum |
| C33, C54 | `ToOScriptedSurvey`: alerts, flush, tessellation per visit, rows (`Too.v`) | invariants over call histories with a log of scripted alerts; rows related to the plan by Forall2; C54 refuted |
| C53 | `calc_reward_function`, `generate_observations` caches | case analysis of the shared cache |
| C35 | Surveys.v: approx_time of both survey classes, FieldSurvey sequence expansion and generation | arithmetic over the sequence; factor 576 for the field survey; refuted as stated |
| C36 | Surveys.v base_reward, dd_reward, fd_reward; Blob.v markov, blob and pairs rewards | case analysis on feasibility; weighted sum at a pixel by induction; field survey refuted |
| C55 | Surveys.v sub_single, sub_batch (base_survey.py 129-189) | fold over the ignore list; Permutation with the single path |
| C56 | Blob.v area checks of the three classes; distances an arbitrary relation, (pi/180)^2 an arbitrary positive number | case analysis; counting lists of pixels; refutations by witness |
| C57 | Blob.v block_state, block_size over exact rationals | arithmetic on rounding to even and floors |
| C58 | Blob.v grow_argsort with the mask of (pixel, slot) pairs (Blob_grow.v proofs) | loop invariant on the mask; inductive growth relation; connected component |
| C59 | Blob.v greedy_pix, greedy_fields, binned_max, simple_sort | stable sort, Permutation, nanmax |
| C60 | Blob.v pass_fields, mask_far, blob_passes, blob_rows; order_observations any permutation | induction over passes; refutations by witness |
| C61 | Blob.v dither_step; rotations as indices | invariant over calls |
| C62 | Feat.v calc_season over exact rationals | floor arithmetic |
| C63 | Feat.v pn_one, pn_arr with the log slice (Feat_pairs.v proofs) | invariant on the log; slice of a sorted log equals the entries in range |
| C41 | Schema.v: SchemaConverter on named columns over reals | round trip by lookup lemmas; `note` refuted |
| C42 | Util.v: SimTargetooServer | mask selection equals filter |
| C64 | Util.v: TargetoO.queue_should_flush | maximum over a masked map; refuted when the mask is empty |
| C65 | Cond.v: Conditions attributes, caches and what each setter clears; formulas are parameters | invariant over any history relating each cache to the inputs in force |
| C66 | Shadow.v: alt_az_shadow_mask loop with its reused azimuth names, time grid, padding, call cache | per pixel characterisation of the loop by induction on the time list; azimuth ranges specified by whole turns |
| C67 | DetOrder.v: the four reordering detailers over any observation type | rotation and permutation lemmas; lower bound on band changes by induction over any rearrangement |
| C68 | DetOrder.v: TruncatePreTwi, TwilightTriple | cumulative times equal the closed-form duration of each prefix |
| C69 | DetEdit.v: nine columns of an observation with their widths, eleven detailers | pointwise relation between the lists before and after; fold over the visit history for the sequence |
| C70 | DetEdit.v: IndexNote, TagRadial, TakeAsPairs | longest digit suffix of a note is its index |
| C71 | Rot.v: the three converters and _wrap_180 over exact numbers with any positive pi | directions modulo a turn, uniqueness of the representative |
| C72 | Rot.v: _update_rot_sky_pos, smallest_signed_angle | case split on the candidates; shortest-way lemma for smallest_signed_angle |
| C73 | Rot.v: five rotator detailers; random numbers and parallactic angles are inputs | pointwise relation on rows; induction over call sequences; induction over band runs |
| C74 | Dither.v: DitherDetailer with its NObsCount feature over histories of calls and visits; offsets of a seed are an input | invariant over histories; count of a sorted visit list |
| C75 | Dither.v: Split, DeltaCoord, ComCamGrid, Euclid; geometry is an input | merge/select laws; block indexing; induction over band runs |
| C76 | RegLabel.v: split, set union, join and cut of the column; labels under a pointing are inputs | split of a join; induction over fields; witnesses |
| C77 | VaryExpt.v: depth lookup, clip and rounding over the reals; pixels and neighbours are inputs | real analysis of 10^x and log; witnesses |
| C78 | GateLoop.v: the five gates over the features of Feat.v, one visit at a time | traces of own blocks and other visits; induction over the trace; witnesses |
| C79 | BfCall.v: instance state, add_observation, __call__ for a class given by its features; AreaCheckMask over a list of them | induction over calls and visits; witnesses |
| C80 | TimeGate.v: check_feasibility of each gate over a record of the conditions it reads | case analysis; C09 for the scheduled list; residues of consecutive nights; witnesses |
| C81 | MaskLoop.v: each mask as a class of BfCall.v over the features of Feat.v | invariants of the features by induction over reports; bound by induction from the right over visits; witnesses |
| C82 | Turn.v: rewards as functions of the reported visits; LastObservation as array or record | induction over greedy runs; witnesses, one an infinite family |
| C83 | Sky.v: each mask as a function of the map of its quantity; IntRounded comparisons of whole arrays | case analysis on the comparison (exact or rounded); uniqueness of the hour angle in a day; induction over chained bands; witnesses |
| C84 | Foot.v: StepLine, StepSlopes, PerFilterStep per pixel; make_rolling with slices, halves and steps; angles in turns | piecewise linear stair function, monotone and Lipschitz; permutation sums of rolled lists; unique slice by monotone split points; cell by cell sum of the parts |
| C85 | Foot.v: Footprint and Footprints as state machines with a stored date; FootprintBasisFunction on counts of visits | invariant of the stored answer over calls; double sum over cells and counting of visits; induction over runs following the reward |
| C86 | Cadence.v: VisitRepeat on PairInNight and LastObserved, CadenceEnhance on LastObserved, trapezoid and suppress_enhance | invariant over visits and questions; counting of pairs against rewarded visits; piecewise linear cases |
| C87 | SeasonBf.v: NObsPerYear on LastNObsTimes, NGoodSeeing on NObservationsCurrentSeason with the season brought up to date by visits and questions | sorted times and counting; invariant of the season count over visits and questions; angles modulo a turn |
| C88 | SiteData.v: SeeingData, CloudData and CloudMap lookups with bisection, wrapping negative indices, python comparison of lists; conversion of dates by astropy not modelled | bisection lemmas; sorting as permutation; rounding bounds; induction over added frames |
| C89 | DownGen.v: the four-kind loop over nights on a sequence of draws, first-year downtime per night, joining and sorting, status and DowntimeModel by bisection | induction over nights; bisection lemmas on separated intervals |
| C90 | Almanac.v: rows of the sunset table, renumbering, lookup by bisection, lookup by local date with the machine zone as parameter, the observatory night number | bisection on increasing sunsets; counting of sunsets in intervals; floor bounds |
| C91 | Seeing.v: SeeingModel for one and many airmasses, SysEngVals, m5_scale, m5_flat_sed, dark_m5, depth of a pixel and of a visit, M5Diff at a pixel | real analysis: the depth is 1.25 log10 of u e^2/(e+Ku), monotone in e and u; spherical law for the meridian |
| C92 | Pointings.v: PointingsSurvey construction, the nine methods, reward with its cache, feasibility, winner, single and batched reports | invariant over any list of reports and questions; values at one target; witnesses for the refuted parts |
| C93 | LongGap.v: LongGapSurvey over the model of ScriptedSurvey: scheduling with the zenith wait, single and batched reports, reward, generation; blob survey, altitudes and random gaps arbitrary | invariant over any list of calls, with the script as a list of rows explained by the reports of the night; witnesses for the refuted parts |
| C94 | SkyPre.v: interp_angle, choice of file, _load_data with its slice, return_mags with both approximations and the extrapolation; altitudes of sun and pixels and pixel distances arbitrary | invariant of the loaded slice over any list of questions, binary search on increasing times, filling as a fold; witnesses for the refuted parts |
| C95 | Ddf.v: match_cumulative, ddf_slopes, optimize_ddf_times function by function; the night of a time and angles in radians are inputs | trace of the placements by induction, binary search on strictly increasing lists, rounded monotone curves, masks over the grid; witnesses on a grid of fourteen times |
| C96 | Ddf.v: generate_ddf_scheduled_obs with its choice of settings per row; ddf_locations, radians and the grid are inputs; dist_tol, target_name, science_program and observation_reason left out | structure of the result by inversion of the loops, C95 for the times; witnesses by computation |
| C97 | SkyArea.v: the four generators with every add_ method, estimates of visits, band_count_ratios, generate_all_sky; pixel coordinates, angular separation, smoothing and the polygon test are inputs | painting as a fold with the invariant that a label never changes, first step found in the flattened order, modular arithmetic for the bulge, sums by label; witnesses by computation |
| C98 | Sphere.v: coordinate_transformations.py lines 261-612 on reals, arctan2, nan as None, numbers and one-dimensional arrays for _angular_separation; not cartesian_from_spherical and spherical_from_cartesian, which only transpose | haversine sum as half of one minus the inner product, Cauchy-Schwarz for the triangle inequality, Rodrigues formula with nsatz, arctan2 by its polar form |
| C99 | Sphere.v: bearing.py and projections.py on reals, one triple of points for point_to_line_distance (the array branch applies the same steps by element) | the local frame at a point, great circles as cos s p + sin s t, cosine of the distance along the arc as a shifted cosine, mean value theorem for tan |
| C100 | Horizon.v: calc_lmst, _wrap_hour_angle, the approximate transformations and both parallactic angles on reals, one element at a time; not the astropy transformations nor rounding, so nor the zenith, where the azimuth is 0/0 | inner products with the zenith, north and east at the site; arctan2 by its polar form; half-angle case of the arccos branch by the sign of the east component |
| C101 | Htm.v: Trixel, level_from_htmid, trixel_from_htmid, get_all_trixels, find_htmid slow and fast, with the cache, on real unit vectors and integer ids | determinants as barycentric weights; induction over levels with the trixel and its id; the dict of get_all_trixels by an invariant over the ids gone through |
| C102 | HtmHalf.v: HalfSpace, bounding_circle, contains_pt, intersects_edge, intersects_circle, contains_trixel, find_all_trixels on real unit vectors | trixels from level 2 are acute and small enough that the cosine passed as a radius is no smaller than the radius; edge crossing by the quadratic of the code and the intermediate value theorem; induction over levels of the search |
| C103 | HtmHalf.v: merge_trixel_bounds, join_trixel_bound_sets on lists of integer pairs | invariant of the merging loop; the two indices of join as what is left of the lists; a tidy list is determined by its ids |
| C104 | HtmHalf.v: half_space_from_ra_dec, half_space_from_points, intersect_half_spaces | separations of C98 and the search of C102; vectors written in the basis of two centres and their cross product |
| C105 | HealBin.v: int_binned_stat, _healbin, moc2array, ra_dec_nearest_interp, match_hp_resolution; np.argsort any sort, values rationals or nan | a sorted list is the part below, at and above an id; sums over pixels regroup; bounds of log2 |
| C106 | Fov.v: _build_tree, _tree_for_mask, _hp_grow_mask with the attributes kept on the function and the lru_cache of hp_grow_mask | invariant over the list of calls: kept trees are those of the kept nside and scale; chords against angles, rounding errors of at most 1/2 a coordinate |
| C107 | Fov.v: hp_kd_tree, HpInLsstFov | as C106: chord against angle, rounding error; each pointing of an array on its own |
| C108 | Fov.v: HpInComcamFov with its corners, rotation and rounding; contains_points a parameter that is right for convex polygons | cross products of rounded corners err by a bounded amount; square inside and outside by half planes |
| C109 | CamFoot.v: rotate, LsstCameraFootprint with its crop, projection, rounding to indices and look-up | each index is its own test; rounding to the nearest pixel errs by half a pixel on each axis; tangent against angle |
| C110 | Sampling.v: uniform_sphere, sample_patch_on_sphere; numpy.random a shared seed and count over any stream in [0, 1) | arccos is decreasing; the number drawn against the share of the area |
| C111 | Tess.v: comcam_tessellate, linspace with both ends, the running rotation, the mirror | nearest multiple of a step; q / (ceil q - 1) is at most 7/6 from six steps up; sin s > 31/32 s near the pole |
| C112 | RiseSet.v: riseset_times for arrays, with the first guess, the Newton loop and the warnings | induction over the steps; hour angle of the guess gives the altitude exactly; wrap of the difference |
| C113 | ConsDb.v: Gregorian calendar, mjd2dayobs, the retry loop, the selection by day_obs, the guessed columns of the LSST cameras, night, slew_distance, sky_mag_per_asec | integer yyyymmdd of the next day is the next there is; induction over nights; Cassini's shell by squares |
| C114 | Zernike.v: factorials and polynomials kept in dictionaries, evaluate for numbers and arrays, norm, evaluate_xy | invariant of the dictionaries; finite differences of products of linear factors; product to sum of angles |
| C115 | NightTimes.v: alt_passing_interp and the rough table of nights | the cut is always made by counting indices; sorted lists and searchsorted; a sign change between two settings |
| C116 | ObsArray.v: the two dtypes, tolist, concatenate, to_observation_array, rstrip and backfill_filter_from_band | induction on fields and rows; uniqueness of the stripped text |
| C117 | LsstSurveys.v: safety_masks, standard_bf and the eight generators; basis functions and detailers as their class and arguments; n_obs_template, good_seeing, both dictionaries. Footprints and the format of numbers are parameters | case analysis over the generators; sums over the list of basis functions; injectivity of names |
| C118 | GenEvents.v: the generators of events over R, with the random draws and the positions near the sun as arguments; the table, objects and server; the ten scripts of gen_too_surveys as data | closed form of the table, counting over permutations, bounds of floors and half-even rounding; cases over labels and scripts |
| C119 | DdfSeq.v: the tables and loops of define_ddf_seq as data, the stored schedule as a map of files with checksum and arguments, the masks of gen_ddf_surveys; times and visits from Ddf.v | evaluation over all rows lifted to statements for every row; C95 and C96 for the times; invariant of the files over any sequence of calls |
| C120 | Roman.v: the seasons and settings as data, the gates of TimeGate.v and GateLoop.v in their order with short cut, DeepDrillingSurvey of Surveys.v, masks of LsstSurveys.v | cases over the six seasons; C80, C78 and C34 for gates, delays and sequences |
| C121 | Baseline.v: gen_scheduler with its namespace, the surveys of LsstSurveys.v, Roman.v and GenEvents.v with the settings of each call, os.path.join, str.replace, file name | the scheduler as one term in resolution and start; boolean tests of all its surveys reflected into statements; induction over the path for the file name |
| C122 | Simple.v: the lists of basis functions, weights, detailers and arguments of each survey, the list of masks of the caller after the call, the search for the sunset with Python indices, mjd.setter and mount_bands | lists split at the masks; bisection lemma of Bisect.v; induction over the sequence of bands |
| C123 | ConsObs.v: each column of opsim by instrument from a table of numbers, texts and nulls with missing columns, arithmetic that leaves nulls out, the relation of the rotator with real modulo, then opsimdf2obs of Schema.v | the table is taken apart column by column; the array of it computed with the columns left symbolic; real modulo lemmas for the rotator; logarithms increasing for the depth |
| C124 | ShortExpt.v: the names the module of features has, goal, which visits are due, the loop with the marks of what line 106 changes, the call | loop invariant relating the list to groups of a visit and its short ones; ceiling of a ratio for the scaling |
| C125 | SchedDown.v: Gregorian 1 January, rows to downtimes, the two binary searches of the lookup, the total | calendar by case on the remainders; nights listed and counted as a permutation; binary search on ordered starts and ends (Bisect.v) |
| C126 | Download.v: the server as answers to each request for each byte, the retry loop with partial file, sizes and resume, the choice for each directory, versions dictionary and text, the call and the command | invariant that the partial file is a beginning of the file and the total is unknown or right, over the attempts; invariant over directories and over any sequence of calls that versions of expected value tell the truth |
| C127 | RewardDf.v: region mask, scalars of a reward, labels with numbering and dictionary, rows and accumulated rewards, reward_changes, table of the scheduler, choice with keep_rewards, surveys_df | induction over the basis functions with the growing lists; masked values stay masked under weighted sums; labels refined to the specification of survey_labels; choice read off the table by the specification of first list and first greatest |
| C128 | SkyFiles.v: the tags of the page, the disk, the loop of downloads, listing, names, ranges and choice of file of SkyModelPreWithLocalFilesOnly | invariant over files and over calls that each file is absent or right; insertion sort on texts; order of texts of one width is that of their values |
| C129 | PointingsDf.v over Pointings.v: the attributes a reward leaves, _reward_to_scalars, make_reward_df, reward_changes | induction over the weights with the running sums; finite places only shrink; witnesses for the refuted parts |
| C130 | SiteParams.v: default parameters, Site.__init__, list of missing values, __eq__, __ne__, to_earth_location | case analysis over the seven parameters; equality through the attributes |
| C131 | SpecPaths.v: strip, os.path.join, __getitem__, __contains__, __setitem__, __init__ over numbered dictionaries, the five patterns, default_spec_map | insertion sort of the patterns, first match is the least; exclusion by first letters; witnesses for sharing |
| C132 | LongGapDf.v over LongGap.v: _check_feasibility, make_reward_df | facts of the reward of LongGap_proofs; a night of Props_LongGap as witness |
| C133 | FieldAltAz.v over Horizon.v: the array a survey keeps, positions replaced, generate_observations, AltAz2RaDecDetailer | induction over the surveys built and over the detailers; C100_round for the way back |
| C134 | Wind.v: the pressure of the wind at an azimuth, the mask and the two rewards, constant wind, the wind of the ideal observatory | inequalities of cosine and arccosine over the reals, reduction modulo whole turns |
| C135 | DdfGrid.v over Ddf.v: rows with the state of the sky model carried along, zeroed daytime, columns, part within the dates | induction over the times; filter of an interval of steps is a run of steps; C95_safe for the schedule |
| C136 | Restore.v over Core.v and Observatory.v: counter, rows taken, reporting, bands, state set | form of the result; lists and maxima; StronglySorted tables; computation for the witnesses |
| C137 | CondSet.v: attributes, the reset of them, setters, set_attrs, the two functions for a telescope | frame of each setter, induction over the arguments; induction over strings; computation for the witnesses |
| C138 | OrderSky.v over Tsp.v and Sphere.v: mean azimuth, centre, projection, distance matrix, order_observations | vector algebra and Cauchy-Schwarz in the frame of the centre; sums; C39_tour for the permutation |
| C139 | Spin.v over Sphere.v: thetaphi2xyz, rotx, xyz2thetaphi, _spin_fields of both survey classes, _hp2fieldsetup, _hpcorners2fieldsetup, _tesselate up to the order (C138), constructors; tree query as the nearest point; HEALPix positions as parameters | the mirrored coordinates conjugate the turn to rotations about z, x, z; isometry, inverse; induction on turns |
| C140 | Shown.v: get_basis_functions, get_healpix_maps, surveys_df, label, the index put away by flush_queue; values of a basis function as a function of the conditions (BfCall.v is about what it keeps); identities in decimal digits | decimal text is injective and has no @, so labels of different objects differ and none ends in _sky; folds over the tables |
| C141 | TargetM5.v: calc_target_m5s: altitudes from declinations, the bins of binned_statistic, np.interp, airmass, m5_flat_sed (Seeing.v); nan as None; degrees and magnitudes rational | floor of the altitude against the edges of bins; convexity of averages; monotone airmass; C91 for depths |
| C142 | Ephem.v: get_sun_moon_positions, get_planet_positions; interp1d as a rule of weights, with kind linear and the parabola through three rows; longitudes by their two coordinates | weights are linear so turning the table turns the answer; polar form of the interpolated vector; cross products for the arc |
| C143 | Raster.v: raster_sort with its edges, digitize, argsort and slices | cuts at the steps down are the maximal rising runs of the sorted list; digitize counts edges so equals the strip number |
| C144 | WarmStart.v: warm_start over any add_observation that may raise; numpy sort by the key and then by the other fields | a sorted list under an antisymmetric order is unique, so permutations give the same replay |
| C145 | SharedArray.v: a segment with a name, one handle per process, views and arrays of their own; step for each call | induction over the list of calls; set_nth lemmas |
| C146 | DdBfs.v: dd_bfs as the gates of TimeGate.v and GateLoop.v in their order, MoonDown, and their features along a history | case analysis of the gates, then C78 and C80 on each; the share by C78_fraction_partial over the run |
| C147 | SeasonOffset.v: create_season_offset on a list of RAs in turns, with season_calc of Util.v | the first passage is the offset taken modulo a year; passages are whole years apart; then C40_season |
| C148 | CleanUp.v: targets as dicts, lists or other objects; close() as a value that returns or raises | induction over the targets; resuming by well-founded induction on the number of objects held |
| C149 | FieldGates.v: NotTwilight and VisitGap of simple_rewards_field_survey along a history | C80_not_twilight and C78_gap_open at one time; order of the run for the spacing |
| C150 | NormFactor.v: calc_norm_factor over a list of maps of reals, npix2nside, pixel area | sums over permutations, multiples and split pixels; field |
| C151 | Percent.v: tma_movement, rotator_movement, conversion to radians, default limits; jerk_time from Jerk.v | every motion has a top speed w, duration d/w + ramp(w), and no feasible top speed does better; the ramp is a minimum over accelerations |
| C152 | Jerk.v (jerk_time); motions as functions with derivatives, and as phases of constant jerk (Jerk_proofs.v, Quickest_phases.v) | speed envelope from rest (a differential inequality with the square of the positive part), its area by the mean value theorem, and the same from the end backwards |
| C153 | Kinem.v (slew_times) and Percent.v | every part of the slew is monotone in the duration of its axis, which C151 bounds |
| C154 | SlewArray.v: slew_times over a list of targets, element by element; the band steps at index 0 only | case analysis against slew_times of Kinem.v |
| C155 | Sim.v (the loop of sim_runner) and Observatory.v (check_mjd, observe) | a bound on the passes left, 2(end - clock)/d and one more or less as the queue has just been flushed, that each pass lowers by one |
| C156 | Whole.v: the loop of Sim.v with observe of Observatory.v behind it | invariant of the loop: visits so far form a chain up to the clock |
| C157 | RewardLog.v: notes of stamps, tables and visits kept beside the scheduler in the loop of Sim.v; pd.concat at the end | invariants of the loop; erasing the notes gives the plain run |
| C158 | `visit_time`, `observe` (`Kinem.v`), the warning of `observe` (`Props_KinemMore.v`) | algebra on the times returned; witness with four exposures |
| C159 | PlanAhead.v: constructor, `check_night`, `calc_reward_function`, `generate_observations`; BlobSurvey and the mean direction arbitrary | invariant over call lists; look-up of the missing name |
| C160 | InSeason.v: the attributes of Conditions, angle to mid-season, the three rewards | look-up of the missing names; least distance on the circle; map specs |
| C161 | RunInfo.v: reading of versions.txt, `get_info`, `run_info_table`, end of `sim_runner` | round trip of the written versions; map specs; injectivity of the table |
| C162 | ReadFields.v: strides of the file, numpy broadcasting, `_ra_dec_from_xyz` on arrays, `_read_fields`, `read_fields`; on real numbers; reading of text and files with several columns not modelled | induction over the points; directions and round trip from C98; lengths of the strides |

In `Kinem.v` the coordinate conversions (ra/dec to alt/az, parallactic angle and
rotator conversions) are arbitrary functions; the slew is for one target, the
vectorised case evaluates the same formula per target and does not update the
state. Altitude/azimuth starts, `lax_dome`, `slew_while_changing_filter` and
`constant_band_changetime` are modelled.

Status in `MANIFEST.json`: a property that is refuted as stated, or proved only
under a guard its text does not have, is `partial`, never `proved`; the note says
which.

## Findings

Places where the code, as modelled, does not do what the property says. Each has
a `..._refuted` theorem with a concrete witness.

* **C05** `IntRounded` decides for a whole array at once whether to round. One
  queue entry whose flush time ties with the current time makes every flush time
  in the queue be compared after rounding to whole days, so an entry that expired
  0.3 days ago is handed out (`queue_manager.py` 114-152, `utils.py` 151-267).
* **C06** `request_observation(mjd=t)` ignores `t` (`core_scheduler.py` 332-385).
* **C11** A batch report to an empty queue is not shown to the queue manager's
  basis functions and detailers, single reports are (`queue_manager.py` 80-91).
* **C12** Batch reports compute footprints without the rotation angle
  (`core_scheduler.py` 180), single reports with it.
* **C13** Two surveys named `X` and one named `X 1` get the labels `X 0`, `X 1`,
  `X 1` (`core_scheduler.py` survey_labels).
* **C14** see C05; values 1e-12 apart on both sides of a half integer compare as
  different.
* **C16** `n_visit_limit=0` is not respected: the test is for equality after the
  first visit (`sim_runner.py` 236-238).
* **C17** With default settings an expired entry is executed: the queue check uses
  the new time, the request uses the conditions of the last refresh.
* **C21** Start-up raises ValueError when all downtimes overlap into one block
  (the circular `np.roll` drops every row) or when there are fewer than two
  (`np.min` of an empty array) (`model_observatory.py` 253-264).
* **C23** With an azimuth range below a full turn the raw azimuth of the target is
  stored, so with limits of -100 and 100 degrees a target at 350 degrees leaves a
  cumulative azimuth of 350 degrees (`kinem_model.py` slew_times).
* **C24** (side finding) A tracking slew without any rotator angle is accepted and
  leaves the state without a sky rotation; the next slew that gives one raises
  TypeError.
* **C25** Motion of the telescope while tracking is not added to the cumulative
  azimuth, so after following one target it no longer matches the telescope.
* **C26** `setup_optics` divides the slope by radians(1) and `slew_times` divides by
  the result, so a larger slope gives a *smaller* correction: 30 degrees at the
  default slope of 1/3.5 s/degree add 0.03 s instead of 8.6 s.
* **C45** Only the end of a visit is checked against downtimes, so a visit can run
  across a downtime shorter than itself (`model_observatory.py` 751).
* **C30** `generate_observations` returns the cached list when asked for the same
  mjd again, also after the row was reported completed or the script was cleared or
  replaced (`scripted_surveys.py` 372-417).
* **C31** `add_observations_array` marks rows from the unfiltered reports and
  ignores by exact match; `add_observation` ignores by substring. Single reports
  never update `scheduled_obs`, and are dropped altogether while the script is empty
  (`scripted_surveys.py` 117-151).
* **C32** The note field keeps 60 characters, so long notes lose their index:
  `set_script` raises ValueError after having stored the rows, leaving `mjd_start`
  of the old script. With add_index=False the next id is read from the rows before
  the new script (`scripted_surveys.py` 342-357).
* **C51** Line 395 counts neighbours with *equal* bands as band changes.
* **C52** `calc_reward_function` and `generate_observations` never call
  `_check_feasibility`, contrary to the class docstring.
* **C29** (side finding) The hour angle limits are joined by *or* (line 199), so a
  row with HA_max below HA_min passes at any hour angle.
* **C54** With `update_mjd0` an alert whose start is not before the current time
  raises UnboundLocalError after its id was put into `seen_alerts`, so it is never
  scripted (`too_scripted_surveys.py` 357-392). `too_type=None`, the default of
  `TargetoO`, raises TypeError for every survey with a followed type (348-349); a
  plan whose `nvis` are all 0 raises ValueError.
* **C32** (ToO) `flush_script` runs for every alert in the conditions, also those
  seen, and sets the next id from the remaining rows, so ids go down and are reused
  (`too_scripted_surveys.py` 251-265).
* **C34** `DeepDrillingSurvey.__init__` runs `np.argsort` on the band column, so a
  sequence given as "rgi" is observed g, i, r; the order of the bands in the
  argument has no effect beyond the band loaded at the time.
* **C35** `FieldSurvey` ends with `self.approx_time /= 3600.0 / 24.0`, a division by
  150 rather than 86400 (field_survey.py 191): the value is 576 times the sequence
  length in days, so `flush_by_mjd` for a single 30 s visit lies more than a day
  ahead instead of about half an hour.
* **C36** `FieldSurvey.calc_reward_function` sets the reward to `np.inf` when
  `np.isinf` holds (field_survey.py 240-241), which -inf satisfies, once a basis
  function returns a map, so a fully masked field outranks every other survey.
* **C56** `area_required` is stored in steradians while `_check_area` and
  `_check_feasibility` multiply the pixel count by `nside2pixarea(...,
  degrees=True)`: the check is 3283 times too weak. BlobSurvey repeats it correctly
  in `calc_reward_function`; BlobPairsSurvey removed that check, so its area
  requirement is in effect absent. Both count -inf pixels as area. In
  BaseMarkovSurvey and GreedySurvey the same check reads `self.ra`, `self.pixarea`
  and `self.max_radius_peak`, which only BlobSurvey sets.
* **C57** `_set_block_size` keeps the twilight `available_time` when the scheduled
  time rounds to the same number of blocks, and overwrites it when in_twilight:
  blocks can run into scheduled observations.
* **C59** GreedySurvey cuts to block_size pixels before taking unique fields, so
  blocks can be short while other fields are available.
* **C60** The second pass of a pair calls `generate_observations_rough` of the
  parent, which recomputes the reward without the `max_radius_peak` mask: the second
  pass can visit fields outside the radius and miss fields of the first. A pairs
  survey with `bandname2=None` takes its second pass in band "None". hp_grow_argsort
  treats -inf pixels as observable. The warning for a third pass names bandname1
  while bandname2 is used.
* **C61** `dither=False` is replaced by "night" with a deprecation warning, i.e. it
  switches rotation on (base_survey.py 595-603; not modelled).
* **C37** `NObservations` looks for the note of the visit inside the note asked for,
  the reverse of its documentation and of `LastObservation`, so a feature asking for
  "blob" does not count a visit noted "blob, g" (features.py 346, 374).
* **C37** Batch and single updates differ: seeing equal to the limit (`>=` against
  `<=`), a seeing map (the single path counts every pixel once one passes,
  `np.any`), a band name of several letters (`==` against `in`), distance equal to
  the limit in LastObservedMatching, a later batch in NObsCount with per_night (no
  reset) and in LastNObsTimes (overwrites, also erases pixels not in the batch),
  bandname "" in NObsNight, the season of the pointing against that of the pixel in
  NObservationsCurrentSeason.
* **C37** `NObservationsCurrentSeason.add_observations_array` tests `np.sum` of the
  pixel numbers, so a batch whose only good pixel is 0 is not counted (features.py
  615).
* **C37** `PairInNight.add_observations_array` finds positions in the rows of the
  last night and looks them up in all rows; with a batch over several nights it
  feeds the wrong visits (features.py 877-881).
* **C38** `BandSchedUzy` documents one swap per dark time, but once the set it asked
  for is mounted the next dark call asks for the other one; it alternates at every
  mounted call (filter_scheduler.py 128-136).
* **C38** `ComCamBandSched` raises IndexError for an illumination above the last
  edge; `DateSwapBandScheduler` raises IndexError before its first entry and
  ValueError for an empty table.
* **C40** `season_calc` documents -1 for seasons above `max_season`; the code
  returns -1 from `max_season` on (utils.py 914).
* **C41** `SchemaConverter.obs2opsim` drops the mapped column `note`; `opsim2obs`
  then returns an array whose `note` is uninitialised memory.
* **C64** `queue_should_flush` takes `np.max` of an empty array and raises
  ValueError when no pixel is at or above the altitude limit, for example when the
  whole altitude map is masked.
* **C43** `SummitWrapper.request_observation` raises AttributeError (`None.copy()`)
  when the scheduler has nothing to observe, instead of returning None.
* **C43** `SummitWrapper.add_observation` treats every pending visit up to the
  reported id as reported; after a report out of order the unreported earlier visit
  is handed out again.
* **C43** `SummitWrapper.flush_queue` drops pending visits and reuses their target
  ids for new visits.
* **C43** When the remaining queue has expired the ahead scheduler refills itself
  without extending the queue of the core scheduler; the next replay returns to the
  expired queue.
* **C65** setting sun_ra, sun_dec, wind_speed, wind_direction or tel_alt_limits does
  not clear solar_elongation, az_to_sun, az_to_antisun, wind_pressure or airmass
  (C65_sun_refuted, C65_wind_refuted). ModelObservatory.return_conditions reads
  airmass before it sets tel_alt_limits, so the airmass map it hands over ignores
  them (C65_observatory_airmass_refuted). airmass raises AttributeError unless an
  altitude was read before; m5_depth raises TypeError unless airmass was, and the
  read after that returns all-NaN maps (C65_m5_nan_refuted).
* **C66** the loop over sky_az_limits reuses the names min_az and max_az, so from
  the second time step on the last allowed range is applied as if it were the
  caller's: with two ranges everything outside the last is masked
  (C66_two_ranges_refuted), and with any range the caller's own azimuth limits are
  dropped (C66_caller_range_refuted). The call cache does not see the limits
  (C66_cache_refuted).
* **C67** BandSortDetailer drops observations in a band its desired_band_order does
  not name, and duplicates those in a band it names twice (C67_band_sort_refuted).
  ChunkByHADetailer raises ValueError when nothing is above its limit
  (C67_chunk_by_ha_refuted).
* **C68** TwilightTripleDetailer divides the time needed by n_repeat where it should
  multiply, so n_repeat passes can need n_repeat squared times the twilight left
  (C68_triple_refuted); its slice also drops the last fitting visit
  (C68_triple_short_refuted); after the last twilight it raises ValueError
  (C68_triple_dark_refuted).
* **C69** FlushForSchedDetailer assigns to a copy
  (observation_array[indx]["flush_by_mjd"] = ...) and never changes a flush time
  (C69_flush_for_sched_refuted). BandSubstituteDetailer does not check that the
  replacement is mounted (C69_substitute_refuted). RandomBandDetailer raises
  ValueError when no fallback band is mounted, and RandomFilterDetailer cannot be
  constructed because it passes its arguments to BaseDetailer
  (C69_random_band_refuted). StartFieldSequenceDetailer passes 3.5 instead of
  ang_distance_match to its feature (C69_start_sequence_refuted), and builds two
  ValueErrors it never raises.
* **C70** notes are cut to 60 characters, so IndexNoteDetailer and
  TakeAsPairsDetailer leave equal notes on long ones (C70_index_refuted,
  C70_pairs_refuted).
* **C72** _update_rot_sky_pos raises ValueError when two candidate angles are
  equally near (an observatory at zero asked for 135 degrees,
  C72_update_tie_refuted) and when the limits leave no candidate
  (C72_update_narrow_refuted); with resolve_rotskypos an unset rotSkyPos stays NaN
  though rotTelPos is set (C72_update_unset_refuted).
* **C73** Comcam90rotDetailer converts the parallactic angle to radians twice, so it
  does not pick the angle with rotTelPos nearest zero (C73_comcam90_refuted);
  _wrap_180 on its two-dimensional table takes a turn off whole rows, so an answer
  depends on the other observations (C73_comcam90_list_refuted). CameraRotDetailer
  past its table raises IndexError once and then silently reuses the previous
  position (C73_camera_rot_night_refuted), and likewise on negative nights in call
  mode (C73_camera_rot_call_refuted). CameraSmallRot clips above only and can go
  below min_rot (C73_small_rot_refuted).
* **C74** DitherDetailer(per_night=False) indexes by NObsCount, which still holds
  last night's count until the first visit of the night: the first list is
  misplaced, positions repeat, and after a night of n_in_night visits every later
  call raises (C74_per_visit_*_refuted). It does not wrap RA (C74_ra_range_refuted).
  big_int just above 36525 lets seeds collide (C74_seeds_refuted).
* **C75** SplitDetailer never passes add_observation to its two detailers
  (C75_split_features_refuted) and cannot hold one that changes the list size
  (C75_split_size_refuted). DeltaCoordDitherDetailer raises on an empty list
  (C75_delta_empty_refuted). EuclidDitherDetailer uses the same seed for night n and
  -n (C75_euclid_seed_refuted).
* **C76** Labels joined beyond 60 characters are cut, so a label is lost and a stump
  invented, and relabelling grows the column (C76_cut_refuted); the order of labels
  follows set iteration, so target_name differs between runs
  (C76_reproducible_refuted); LabelDDFDetailer(append=False) keeps only the last
  field (C76_ddf_clobber_refuted). Read, not modelled:
  LabelDDFDetailer(ddf_location=...) iterates the function ddf_locations and raises
  TypeError.
* **C77** VaryExptDetailer rounds after clipping, leaving non-integer limits
  (C77_limits_refuted, C77_limits_high_refuted), and averages the last pixel of the
  map in for a missing neighbour -1 (C77_neighbour_refuted). Read, not modelled:
  neighbours use conditions.nside but pixels the detailer's nside; ShortExptDetailer
  asks for features.N_observations, which does not exist, so it cannot be
  constructed.
* **C78** OnceInNight compares with the night of the last recorded visit, not with
  conditions.night: after the last visit of a night it stays shut the next night
  until another survey observes (C78_once_stale_refuted), and alone it never runs
  twice (C78_once_alone). SoftDelay divides by the number of visits so far and
  raises ZeroDivisionError at the start of a survey (C78_soft_first_refuted).
  FractionOfObs opens at the fraction and lets a whole block through
  (C78_fraction_refuted).
* **C79** AreaCheckMaskBasisFunction keeps its functions in bf_list, which
  add_observation does not visit, so masks that depend on visits stay as at the
  start of the survey (C79_area_deaf, C79_area_refuted). The cache of __call__ is
  never used: only BaseBasisFunction._calc_value clears recalc and sets mjd_last, so
  every other class is evaluated twice on each call; a class that did keep the books
  would return the reward of other conditions at the same mjd (C79_cached_refuted).
* **C80** LookAheadDdfBasisFunction never reads frac_total
  (C80_ahead_fraction_refuted), subtracts time_jump in days from 24 hours, and tests
  moonset > time_jump, an MJD against a duration, which always holds
  (C80_ahead_units_refuted). RisingMoreBasisFunction does not wrap its hour angle
  although its comment wants -12 to 12 (C80_rising_more_refuted). AfterEveningTwi is
  open before twilight and EndOfEvening after it (C80_evening_refuted);
  CloseToTwilight is open all evening while the sun is high (C80_close_refuted).
  HourAngleLimit with limits around zero loses the eastern half
  (C80_hour_angle_refuted). BandLoaded([]) raises UnboundLocalError
  (C80_no_bands_refuted). Read, not modelled: AirmassPointRange computes its pixel
  at the given nside but reads the map at the default one.
* **C81** NInNightMask and MaskAfterNObsSeeing read their feature without telling it
  the time, so masks of the last night or season stay until some visit is reported;
  a survey that only sees masked pixels then never starts again (C81_night_refuted,
  C81_season_refuted). NObservationsCurrentSeason raises ValueError for a visit
  whose FWHMeff is NaN where NObservations takes 100 arcsec (C81_seeing_refuted).
  AvoidFastRevisits compares whole maps with IntRounded: one pixel seen exactly the
  gap ago rounds every difference to whole days and opens pixels seen a minute ago
  (C81_gap_refuted).
* **C82** StrictBandBasisFunction tests note_free in feature["scheduler_note"]:
  after add_observation that is an array of length one, so the note has to equal
  "DD", while after add_observations_array it is a string and may contain it; the
  free band change after a deep drilling sequence is never given in a simulation
  (C82_strict_note_refuted). BalanceVisits gives a survey never visited the reward
  of one visited once (C82_balance_refuted), gives no boost until nobs_reference
  visits (C82_boost_refuted) and counts notes by substring, so region 1 of a group
  of ten may never be visited (C82_note_part_refuted). BandDist can grow while the
  fraction in the band grows (C82_fraction_refuted).
* **C83** IntRounded comparisons of maps round every pixel when one is close to the
  limit, so a pixel exactly at the moon limit opens pixels more than a degree inside
  it (C83_moon_refuted) and one at the elongation limit admits pixels 23 degrees
  beyond (C83_elongation_refuted). HaMask documents limits such as -3 to 3 hours
  though hour angles run from 0 to 24, so it masks pixels before transit
  (C83_ha_refuted). AzModulo uses the same test in both branches, so the wrapped
  limits, the first of the defaults, mask everything (C83_az_north_refuted).
  DecModulo returns 0, not out_of_bounds_val (C83_dec_out_refuted);
  AzimuthBasisFunction grows with the slew (C83_azimuth_refuted); MaskAllButNES
  returns zeros (C83_nes_refuted); BulkCloud masks at equality and gives pixels with
  maxima above one the value 1 (C83_cloud_refuted).
* **C84** With uniform=True make_rolling_footprints halves the sky by right
  ascension with both ends included, so a wide-area pixel exactly 90 or 270 degrees
  from the sun is in both halves and is wanted twice (C84_edge_refuted). StepSlopes
  indexes one past the current season for every pixel, so a list of N steps lasts
  between N-2 and N-1 years, not N (C84_years_refuted, C84_slopes), and its first
  step is never used (C84_slopes_step). Footprint subtracts the coverage of its step
  function at time zero, which takes away the nights up to the start from
  PerFilterStep, so a band loaded only on the first night is never asked for
  (C84_loaded_first_refuted).
* **C85** Footprint keeps its answer by date only: asking with norm=False first
  leaves the normed answer un-normed (C85_norm_refuted), maps set later are not used
  for that date (C85_changed_refuted), a date whose computation failed is answered
  with the previous map when asked again (C85_again_refuted), and a part asked by
  itself is added normed to the sum (C85_part_refuted). ConstantFootprint returns
  its maps un-normed although FootprintBasisFunction multiplies by the number of all
  visits (C85_constant_refuted). Read, not modelled:
  FootprintBasisFunction(footprint=None) builds a default footprint, drops it and
  fails with AttributeError.
* **C86** CadenceEnhance builds LastObserved without its nside and with NaN for
  pixels never seen, and IntRounded refuses NaN, so it raises ValueError until every
  pixel of its area has been visited in its bands, hence from the start of every
  survey (C86_enhance_unseen_refuted), and IndexError for a larger nside
  (C86_enhance_nside_refuted). VisitRepeat rewards a gap of exactly gap_min that
  PairInNight does not count, so more visits than asked for follow it
  (C86_repeat_tie_refuted), and one such tie rewards pixels seen a minute ago
  (C86_repeat_spill_refuted). Read, not modelled: NObsPerYear fails
  with TypeError when its footprint is None.
* **C87** NGoodSeeing gives its feature the depth limit as a loss from dark_sky, a
  surface brightness near 21, while the reward itself uses dark_m5, a depth near 24;
  the feature limit therefore never excludes a visit and shallow visits count as
  good (C87_good_depth_refuted). One pixel exactly on the edge of the season makes
  NObsPerYear reward pixels past it, above 1 (C87_year_spill_refuted). Read, not
  modelled: NGoodSeeing with bandname None subtracts from None.
* **C88** SeeingData and CloudData index with idx-1 when idx is 0, which wraps to
  the last entry: at the first date of the record (every multiple of its length for
  seeing; any moment up to the first date for clouds) the last value is returned
  (C88_seeing_wraps, C88_cloud_wraps). CloudData does not add the first date back,
  and for a record shorter than a year divides by zero. CloudMap.add_frame compares
  lists where arrays were meant: late frames go unnoticed unless the first two are
  out of order, and then indexing a list by an array raises TypeError on this and
  every later call while frames pile up (C88_late_frame_refuted, C88_stuck).
* **C89** UnscheduledDowntimeMoreY1Data joins engineering time with regular
  downtimes without merging: intervals overlap, ends are not sorted, and
  _downtime_status and DowntimeModel report up inside a downtime
  (C89_year1_status_refuted; the model observatory merges them itself, C21).
  DowntimeModel raises IndexError from the start of the last scheduled downtime on
  (C89_model_raises).
* **C90** Almanac lookup before the first sunset wraps to the last row
  (C90_lookup_refuted); index_for_local_evening takes the date as midnight in the
  time zone of the machine and on machines east of UTC returns the night before the
  one asked for (C90_evening_east, C90_evening_refuted); a survey start at night
  makes the start night number 0 although the comment says 1, and makes
  ModelObservatory.night change in the middle of each night
  (C90_start_night_refuted, C90_split_refuted).
* **C91** Not a violation of C91: the docstring of SeeingModel says both
  contributions scale with wavelength^-0.3, only the atmospheric one does
  (C91_wavelength); m5_scale with its default base_exp_time of 15 s gives a deeper
  value than m5_flat_sed on the shipped values, which are for 30 s
  (C91_scale_default_differs).
* **C92** PointingsSurvey: (1) the sun limit only enters _check_feasibility, which
  the scheduler never calls (C92_sun, C92_sun_refuted); (2) the reward is kept by
  mjd, so a visit reported at the same mjd is not seen and the target is offered
  again (C92_gap_stale_refuted); (3) one target visited just the gap ago makes
  IntRounded compare whole days and the gap is not enforced for any target
  (C92_gap_rounding_refuted); (4) balance_revisit is 1 for every target unless all
  visits were of one target, which gets 2: it favours the visited one, and has no
  effect once two targets were visited (C92_balance_flat, C92_balance_once,
  C92_balance_refuted); (5) through the scheduler a report is an array of one visit,
  and "key in" such an array asks for equality, so tracked sequences never count
  (C92_sequence_refuted); (6) hour angle limits of one sign, or from the meridian
  on, mask nothing (C92_ha_refuted); (7) a visit reported late replaces the last
  time (C92_last_refuted).
* **C93** LongGapSurvey: (1) self.site is set only when no site is given, so a given
  site raises AttributeError at the first finished pair (C93_site); (2)
  reward_checked is not set in the constructor, generate_observations before any
  reward raises (C93_unasked); (3) the gap shortened for the end of the night is
  overwritten by every report, and follow-ups are placed past the end
  (C93_night_end_refuted); (4) visits reported back after a restart are scheduled
  and then cleared by the first question of the night (C93_restart_refuted); (5) any
  report whose night is past the drawn gaps is refused, whatever its visits
  (C93_index), and negative nights take gaps from the end (C93_negative_refuted);
  (6) a position always above the limit makes the report wait for ever (C93_zenith).
  PlanAheadSurvey cannot be constructed: features.Last_observed and
  basis_functions.Moon_avoidance_basis_function do not exist (read, not modelled).
* **C94** SkyModelPre: (1) loaded_range ends at a map the slice leaves out, so in
  the last step of a chunk the map before is returned instead of the interpolation
  and the answer depends on what was asked before (C94_history_refuted, C94_edge);
  (2) a pixel masked in one of two maps comes out as a fraction of the mask value,
  and badval is ignored when interpolating (C94_mask_refuted); (3) extrapolate takes
  the distance from indx[i] where i counts masked pixels, not from the masked pixel
  (C94_fill_refuted); (4) the maps are dropped before the new ones are found, so a
  failed question makes later ones in the old range raise AttributeError
  (C94_failed_refuted).
* **C95** lsst_ddf_presched.py: (1) match_cumulative compares the night of a rise
  with positions in the list of free nights, so after the first event is taken every
  event falls one night late though its night is free (C95_clear,
  C95_nearest_refuted); (2) a rise by two in one night gives one event and what is
  wanted on the first night is lost (C95_jump_refuted); (3) free nights are not
  limited to the season, so the late events fall into the off season
  (C95_season_refuted); (4) low_season_frac above season_unobs_frac, and
  early_late_season_only, give the off season the low rate, against the docstring
  (C95_accordion_refuted); (5) a season of one night divides by zero and schedules
  nothing (C95_short_refuted).
* **C96** generate_ddf_scheduled_obs: (1) the first part of the Euclid double field
  gets no moon_min_distance, and odd numbers of visits give one more
  (C96_double_refuted); (2) rows of one field are placed without regard to each
  other, so two sequences of a field get the same time (C96_clash_refuted); (3)
  nothing to schedule raises ValueError from np.concatenate (C96_answers); (4) a row
  marked even is put on odd nights, since mask_even_odd masks (C96_dark);
  low_season_frac, low_season_rate and bands are ignored.
* **C97** sky_area.py: (1) gal_dec_max, documented as the maximum declination of the
  galactic plane region, is stored and never used (C97_decmax_refuted); (2)
  read_dustmap with a file name raises UnboundLocalError, filename being set only
  without one (C97_dustfile_refuted); (3) add_magellanic_clouds takes the minimum of
  an empty array at coarse resolution (C97_total); (4) generate_all_sky compares
  with IntRounded, so one pixel at the limit makes it compare whole radians and
  nothing with an elevation above -0.5 rad is masked (C97_allsky_refuted); its
  docstring says radians where degrees are returned.
* **C98** coordinate_transformations.py: (1) _ra_dec_from_xyz returns arctan2, so an
  ra in (pi, 2 pi) comes back negative (C98_round_refuted); (2) _xyz_angular_radius
  folds radii beyond 180 degrees back, 360 degrees giving 0 (C98_cone_refuted); (3)
  rotation_matrix_from_vectors divides by the length of the cross product, so equal
  or opposite vectors give nans (C98_matrix_refuted), and vectors up to 1 percent
  long pass the check and can put the arccos out of range (C98_tolerance_refuted).
* **C99** bearing.py: (1) dest_latlon from a pole ignores the bearing, both
  arguments of arctan2 being 0 (C99_pole_refuted); (2) point_to_line_distance
  returns the distance to the first point whenever the relative bearing is obtuse,
  though on the sphere the second point can be nearer once the third is more than 90
  degrees away: arc from 0 to 90 degrees on the equator, point at -150 degrees,
  answer 150 instead of 120 (C99_arc_refuted); (3) it reads lon1.size, which a
  Python float does not have (read, not modelled). projections.py:
  gnomonic_project_toxy does not notice the far side (C99_far_refuted).
* **C100** coordinate_transformations.py: (1) calc_lmst adds 24 when negative but
  never takes it off, so eastern longitudes give 24 hours and more
  (C100_lmst_refuted); (2) _wrap_hour_angle, "between -pi and pi", leaves angles
  below -pi (C100_wrap_refuted), harmless where only its sine and cosine are used.
  approx_coord_transforms.py: (3) azimuth 2 pi and ra 2 pi are answered where 0 is
  expected (C100_az_refuted, C100_ra_refuted); (4) _approx_alt_az2_ra_dec assigns
  into ra by index, so a Python float raises TypeError (read, not modelled).
* **C101** htm_module.py: (1) find_htmid of one position at level 1 looks only at
  children, so never meets level 1 and recurses without end (C101_find_refuted); (2)
  a position on the edge of base trixels is given to the first by _find_htmid_slow
  and to the last by _find_htmid_fast, which overwrites htmid_arr and then searches
  both, so the vernal point has htmid 32 at level 2 alone and another in an array of
  more than 100 (C101_edge_refuted).
* **C102** htm_module.py: (1) intersects_bounding_circle passes bounding_circle[1],
  the cosine of the radius, where the radius is wanted; harmless from level 2
  (C102_outside), wrong for the eight trixels of level 1 (C102_outside_refuted); (2)
  contains_trixel looks at corners only, so a cap of more than a hemisphere is said
  to contain a trixel its hole lies in (C102_full_refuted) and find_all_trixels
  lists trixels wholly in the hole (C102_find_refuted); (3) find_all_trixels(1)
  lists ids of level 2 (C102_level_refuted); (4) intersects_edge divides by 0 and
  says no where the first corner lies at minus d, for instance on the circle of a
  hemisphere (C102_edge_refuted).
* **C103** htm_module.py join_trixel_bound_sets: an empty set of bounds, which it
  returns itself for sets with nothing in common, makes the next join raise
  IndexError (C103_join_refuted).
* **C104** htm_module.py: (1) a radius beyond 180 degrees is read through its
  cosine, so 270 gives a hemisphere (C104_field_refuted); (2) the third point of
  half_space_from_points is not contained if it lies on the great circle
  (C104_third_refuted); (3) intersect_half_spaces returns the point itself, not a
  list, where the circles touch, so its length is 3 (C104_touch).
* **C105** (1) healpy_utils.py moc2array bins the centres of cells, so cells coarser
  than the output map leave most pixels at fill_val (C105_moc_refuted); (2)
  moc2array takes a pixel whose sum equals fill_val for an empty one and does not
  divide it by its area (C105_fill_refuted); (3) match_hp_resolution alters the
  caller's map in place where the resolutions agree (C105_match_refuted); (4)
  int_binned_stat sorts with an unstable argsort, so a statistic that looks at order
  has no settled answer (C105_order_refuted).
* **C106** (1) _hp_grow_mask sets its attribute nside before the work that may fail,
  so after a first call with a bad nside every later call with that nside raises
  AttributeError (C106_first_refuted); (2) the chord of a grow_size beyond pi
  shrinks again, so a full turn adds nothing (C106_wide_refuted); (3) an empty mask
  raises ValueError out of the tree (C106_empty_refuted); (4) positions are rounded
  to integers after scaling, so a pixel within grow_size may be missed
  (C106_round_refuted).
* **C108** HpInComcamFov.__call__ builds ValueError("No HEALpix in pointing. Maybe
  need to increase nside.") but never raises it, and its test is for pixels outside
  the inner circle, so it would also hold where the inner circle has them all.
* **C109** camera_footprint.py __call__ does not look at the side of the sky: the
  gnomonic projection sends opposite points to the same place, so an object opposite
  to the pointing is given as being on the camera (C109_far_refuted).
* **C110** sampling_functions.py: (1) right ascensions below 0 are wrapped but those
  from 360 up are not (C110_wrap_refuted); (2) np.random.seed is called on the
  shared generator, so a caller's later numbers change (C110_shared_refuted).
* **C111** comcam_tessellate.py: (1) np.linspace takes both ends of n = ceil(range /
  step) points, so spacings exceed the step and the overlap asked for is not
  reached; with overlap 0 there are gaps (C111_gap_refuted); (2) right ascensions 0
  and 2 pi are both taken, so every stripe repeats a field (C111_twice_refuted).
* **C112** riseset.py: (1) "unfinished" is computed with the test for finished, so
  nights that failed are never named and nights that converged are
  (C112_names_refuted), and where all fail there is no warning (C112_quiet_refuted);
  (2) the docstring's values 'evening' and 'morning' of which_direction both mean
  rising, only "down" means setting (C112_words_refuted); (3) max_iter=0 raises
  UnboundLocalError (C112_steps).
* **C113** consdb.py: (1) raise_for_status does not raise for 1xx-3xx, so such
  replies loop without end (C113_endless_refuted); (2) the mean of azimuth_start and
  azimuth_end across 0/360 points the other way (C113_azimuth_refuted); (3) guessed
  identifiers collide (C113_id_refuted); (4) the night is counted from the earliest
  visit loaded if that is before the survey, so the same visit gets different nights
  (C113_night_refuted); (5) the query has no ORDER BY and slew_distance takes rows
  as they come (C113_order_refuted); (6) LATISSConsDBVisits.eff_time_m5 tests column
  eff_time and reads eff_time_m5: KeyError, or nan where the value is there
  (C113_latiss_refuted). Read, not modelled: consdb_visits takes columns of
  visit{num_exposures} but selects FROM visit1.
* **C114** zernike_module.py: (1) _evaluate_radial_array keeps r < 1.0 only, so nan
  at r = 1 though the docstring and numbers have the value (C114_edge_refuted); (2)
  for n - m odd 0 is returned also for r > 1 (C114_outside_refuted); (3) sin(m *
  phi) with negative m is minus the sine of the reference (C114_sign_refuted).
* **C115** generate_altitudes.py: (1) lines 22-26 are meant to drop an index past
  the end but the largest index + 1 is never below the count, so the last passage is
  always dropped (C115_last_refuted); (2) both comparisons are strict, so an
  altitude equal to the goal at a grid time hides the passage (C115_exact_refuted);
  (3) nights without a moonrise or moonset keep 0 (C115_missing_refuted).
* **C116** observation_array.py: (1) ScheduledObservationArray has filter U40 but
  ObservationArray U10, so to_observation_array cuts longer names without notice
  (C116_filter_refuted); (2) its band is U1, so backfill_filter_from_band keeps the
  first letter only (C116_order_refuted); (3) concatenate of the empty list raises
  IndexError, so tolist of an empty array cannot be joined (C116_empty_refuted).
* **C117** lsst_surveys.py: (1) gen_greedy_surveys prepares safety_mask_params but
  calls safety_masks(nside, shadow_minutes) at line 1003, so moon distance, wind and
  altitude limits asked for are ignored (C117_greedy_refuted); (2)
  generate_short_blobs tests `shadow_minutes not in safety_mask_params` (the number,
  line 1418), so a longer shadow asked for is overwritten by the shorter
  (C117_short_refuted); (3) generate_blobs never masks max_alt unless the dictionary
  has the key, though documented as masked separately (C117_max_alt_refuted); (4)
  generate_blobs uses U_NEXP for u_nexp (C117_u_refuted); (5)
  BLOB_SURVEY_PARAMS_DEFAULTS fixes nside at 32, so blobs and templates of another
  nside have basis functions of that nside in a survey of 32
  (C117_blob_nside_refuted); (6) a safety dictionary without nside gives masks at 32
  (C117_nside_refuted); (7) blob_for_long keeps the reason of the first pair for all
  (C117_reason_refuted); (8) the time to twilight leaves out the change of band
  (C117_twilight_refuted); (9) time_needed of generate_twilight_near_sun is not
  used, and its shadow is four visits whatever n_repeat (C117_near_sun_refuted).
* **C118** gen_events.py: (1) gen_all_events passes mjd_start and mjd_end to
  neutrinos and solar system objects only; gravitational waves always fall in the O5
  run, outside the dates asked (C118_dates_refuted); (2) the number of neutrinos for
  the span is computed (line 382) and not used, so a single night has 160
  (C118_neutrino_number_refuted); (3) with every include flag False np.concatenate
  raises ValueError (C118_nothing_asked_refuted); (4) scale leaves neutrinos and
  solar system objects unchanged, as its comments but not its docstring say.
* **C119** lsst_ddf_gen.py: (1) EDFS_a with u=3 gives two visits at each of two
  pointings, four in all (C119_double_refuted); (2) deep rows with even_odd ask for
  200 sequences in a season of 225 nights, of which at most 113 have that parity, so
  the number asked is silently cut (C119_nights_refuted); (3) the deep griz
  sequences last over 50 minutes but shadow_minutes is 30, so fields may be cut
  while a sequence runs (C119_shadow_refuted); (4) the checksum covers two source
  files only: a changed grid file, field locations or site almanac leaves the stored
  schedule in use (C119_stored_refuted); (5) a dictionary of mask settings without
  nside has masks at the default resolution whatever nside the survey is given.
* **C120** roman_surveys.py: (1) DeepDrillingSurvey only calls check_feasibility,
  which safety masks do not define, so the moon, altitude, wind and planet masks
  given to the Roman surveys have no effect at all (C120_masks_refuted); (2)
  AirmassPointRangeBasisFunction looks up the pixel of the given nside in a map of
  the default nside: gen_roman_off_season(nside=64) raises IndexError, smaller nside
  reads another part of the sky (C120_resolution_refuted); (3) the sequence giriz is
  sorted by band, so the repeat of i directly follows the first
  (C120_order_refuted); (4) the off season sequence is estimated at 12.3 minutes,
  its shadow is 11 (C120_off_shadow_refuted); (5) the off season delay of 3.0 days
  counts from the last visit, so the same time three days later is refused and the
  cadence slips towards four days (C120_third_day_refuted).
* **C121** example_scheduler.py: (1)
  generate_baseline_coresched(survey_start_mjd=...) and
  example_scheduler(mjd_start=...) ignore the start: args.survey_start_mjd is set
  and never read (C121_start_refuted); args.outDir likewise; (2) --mjd_plus moves
  the scheduler, the good-seeing images and the run but not the deep drilling
  schedule (C121_ddf_start_refuted) nor the simulated events; (3) for nside other
  than 32 the Roman masks stay at 32 and the pair surveys mix maps of nside with a
  blob map of 32 (C121_resolution_refuted); (4) run with and without --no_too from a
  script or dbroot without the word baseline writes the same file
  (C121_files_refuted), and with a folder that has the word, the folder is renamed
  (C121_folder_refuted); (5) the template surveys do not ignore ToO visits, unlike
  the other wide surveys (C121_ignore_events_refuted); (6) the three near-sun
  surveys share one name (C121_names_refuted).
* **C122** simple_examples.py: (1) simple_pairs_survey with two bands keeps only
  rewards of positive weight, which drops VisitRepeat (-20), so nothing avoids
  repeats (C122_repeat_refuted); (2) require_time appends to the list of masks of
  the caller, so surveys made later with the same list inherit the gates of earlier
  ones (C122_shared_refuted); (3) the gate leaves out the change of band
  (C122_time_refuted); (4) without bandname2 single visits are taken, not pairs in
  one band as documented (C122_second_visit_refuted); (5) the standard shadow of 30
  minutes is shorter than the pair it protects (C122_shadow_refuted); (6)
  update_model_observatory_sunset(twilight=-12.0) raises ValueError (format code d)
  though a float is documented (C122_float_refuted); (7) before the first sunset of
  the almanac the index wraps to the last (C122_sunset_before_refuted); (8) masks
  given to simple_field_survey have the weight of a reward, not zero
  (C122_field_weights_refuted).
* **C123** consdb.py: (1) the table has the key "psudoParaAngle" where the converter
  expects "pseudoParaAngle", so pseudo_pa is nan in every array of visits
  (C123_pseudo_pa_refuted); (2) ComCam visits are given telescope "rubin", so
  rotTelPos is 90 degrees off the relation of RotationConverterComCam, which nothing
  uses here (C123_comcam_rotator_refuted); (3) fiveSigmaDepth holds eff_time_m5,
  seconds, where the database has that column (C123_depth_is_time_refuted); (4)
  filter, target_id and cloud_extinction keep uninitialised memory
  (C123_unset_refuted); (5) obs_midpt_mjd can do without obs_end_mjd, visit_time
  cannot, so no table is made without it (C123_no_end_refuted).
* **C124** short_survey.py: (1) the constructor asks for features.N_observations,
  which does not exist, so no ShortExptDetailer can be made (C124_not_made_refuted);
  (2) with the default footprint None a visit in the band is a TypeError
  (C124_no_footprint_refuted), and time_scale without night_max always is
  (C124_scale_needs_max_refuted); (3) time_scale asks for nobs * ceil(night /
  night_max), which is nobs from night 1 to night_max (C124_scale_refuted); (4) "per
  year" is not looked at, mjd0 unused (C124_per_year_refuted); (5) the copies are
  made before the flush times are moved, so the short visits have to be taken by the
  old time (C124_flush_refuted); (6) counts are of earlier visits only, so a list
  with several visits of a field gets too many (C124_too_many_refuted).
* **C125** scheduled_downtime_data.py: (1) "select * from Downtime" asks for no
  order and nothing is sorted, so a table in another order gives a downtime that has
  not begun (C125_order_refuted); (2) within overlapping downtimes none may be found
  (C125_nested_refuted), and total_downtime counts them twice
  (C125_overlap_refuted); (3) read_data says night counts from the start of the
  simulation, it counts from 1 January of that year (C125_from_start_refuted).
* **C126** scheduler_download_data.py: (1) the command calls
  download_rubin_data(data_dict(), ...) and ignores the file_dict given
  (C126_ignored_refuted); (2) the code of --versions is dropped and exit() has no
  code, so a mismatch or a server that does not answer ends with status 0, also in
  the workflows (C126_status_refuted); (3) the old directory is removed before the
  new one is downloaded; if that fails it is lost, versions.txt still lists it and
  --versions says in sync (C126_lost_refuted); (4) the status of a ranged request is
  not looked at: a server that answers 200 has the whole file appended to the part
  and this accepted (C126_range_refuted); (5) versions.txt is written at the end
  only: after a failure in a later directory it lists the old versions of those
  replaced, and an update of an older release believes it (C126_back_refuted); (6)
  with no size told, a partial file that is whole is asked for beyond its end ten
  times and the call fails, each time (C126_stuck_refuted). Read, not modelled: dirs
  is documented as a list but split as text.
* **C127** Tables of rewards: (1) surveys without basis functions (a plain
  ScriptedSurvey) are left out of make_reward_df even when chosen
  (C127_missing_refuted); when no survey has any, pd.concat raises ValueError and a
  scheduler with keep_rewards cannot fill its queue (C127_none_refuted); (2)
  FieldAltAzSurvey.roi_hpid needs the time of the last reward: with a map among the
  basis functions make_reward_df raises AttributeError before the first reward,
  which with keep_rewards is always; afterwards roi_mask is cached and stays at the
  first position (C127_altaz_refuted); (3) make_reward_df evaluates the surveys
  themselves, so that surveys_df shows rewards for the conditions asked about
  (C127_stale_refuted); (4) feasible is False for a map masked in the region
  although BaseSurvey and those that keep its reward do not look at values
  (C127_blocked_refuted); (5) a basis function listed twice gets one label
  (C127_labels_refuted); (6) reward_changes is documented as the reward of that
  basis function but accumulates (C127_changes_refuted); (7) surveys_df of an empty
  list raises KeyError (C127_empty_list_refuted).
* **C128** rs_download_sky.py / sky_model_pre.py: (1) the status of the answers is
  not looked at: a 404 or 503 page is stored as the .h5 file and later calls without
  force keep it (C128_error_refuted); (2) only the first attribute of a link is
  looked at, an <a> without attributes raises IndexError, a page without tags
  AttributeError, and an error page with tags ends well with nothing
  (C128_links_refuted); (3) a link that begins with / is written there, outside of
  the directory (C128_outside_refuted); (4) a data directory whose parent is missing
  is not made (C128_nested_refuted); (5) one .h5 file of another name in the
  directory stops every SkyModelPre (C128_name_refuted); (6) "the later one" is the
  last by text: 99900_... after 100000_..., 60000_... after 60000.5_...
  (C128_width_refuted).
* **C129** pointings_survey.py: make_reward_df and reward_changes use alt, az and ha
  of the last calc_reward_function: before it AttributeError (C129_first_refuted),
  for other conditions, as CoreScheduler.make_reward_df asks before it computes the
  reward, limits at the altitudes of the time before (C129_stale_refuted); after a
  report at the same time the table has the visit and the reward kept has not
  (C129_kept_refuted); reward_changes leaves out the weights, so the slew time is
  shown as a gain (C129_weights_refuted).
* **C130** site.py: Site.__eq__ reads other.__dict__: site == None raises
  AttributeError instead of False (C130_other_refuted); a site with a NaN parameter
  is not equal to itself (C130_itself_refuted); a class that defines __eq__ without
  __hash__ is not hashable, so a Site cannot be a key.
* **C131** file_maps.py: SpecMap keeps the caller's dictionary itself when it is not
  empty and a new one when it is, so maps made from one dictionary change each
  other, or do not see its later entries (C131_shared_refuted); a key set with a
  blank at an end can never be looked up (C131_blank_refuted).
* **C132** long_gap_survey.py: make_reward_df shows feasible from _check_feasibility
  of both surveys, but ScriptedSurvey.calc_reward_function never asks its basis
  functions, so a waiting visit is observed while the table says not feasible
  (C132_ready_refuted).
* **C133** field_survey.py: FieldAltAzSurvey writes RA, dec, alt and az into the
  ObservationArray it is given without copying it: two surveys built from one array
  both observe the place of the second, and the caller loses RA and dec
  (C133_shared_refuted); the ValueError for a missing AltAz2RaDecDetailer is built
  but not raised, and visits without RA are returned (C133_detailer_refuted); the
  target_name filled in at the end is a local that is never stored.
* **C134** simple_examples.py: get_ideal_model_observatory documents wind_direction
  in degrees (default 340) and passes it to ConstantWindData, which takes radians:
  the wind comes from elsewhere for every direction but those that differ from their
  radians by whole turns, such as 0 (C134_degrees_refuted). basis_functions.py: the
  reward for the wind is the negative of the squared pressure, so sky straight away
  from the wind is penalised as much as sky straight into it (C134_behind_refuted).
* **C135** generate_ddf_grid.py: when the sky model raises ValueError the row gets
  12.0 as the altitude of the sun, in a column of radians (C135_sun_refuted), and
  the moon altitude and phase that the model had before (C135_moon_refuted); such
  rows, like all daytime rows, have airmass 0, and only their infinite depth keeps
  them from being scheduled.
* **C136** utils.py restore_scheduler does not restore last_mjd of the kinematic
  model, so return_conditions and observe park the telescope at once when the run is
  more than park_after past the start of the survey: the position, azimuth and band
  just restored are thrown away and the next slew starts from the park position
  (C136_parked_refuted, C136_continue_refuted). The overhead of the readout is not
  restored (C136_readout_refuted). Without band_sched the mounted bands are u, g, r,
  i, y even when the last visit is in z (C136_mounted_refuted). A table not in the
  order of ID raises IndexError (C136_order_refuted). One by one, visits with only a
  filter leave an empty band in use (C136_blank_refuted).
* **C137** conditions.py set_attrs takes the names in the order given and mjd resets
  the rest, so set_attrs(slewtime=s, mjd=t) silently drops s (C137_order_refuted).
  The warning says all attributes are reset, yet one set with the warning of an
  unexpected attribute stays (C137_extra_refuted). The band of a filter is
  split("_")[0] here and rstrip of digits and underscores in core_scheduler.py: they
  differ on g6 (C137_names_refuted).
* **C138** tsp.py order_observations projects with the gnomonic projection without
  looking whether positions are behind the centre: a field and its opposite get the
  same place and distance zero (C138_opposite_refuted); when the mean azimuth is
  below the cutoff the centre is pi whatever the positions (C138_spread_refuted).
  The order is still a permutation.
* **C139** base_survey.py line 576 and too_scripted_surveys.py line 201 make a
  ValueError for an unknown camera without raising it; the constructor then fails
  with AttributeError on fields_init (C139_camera_refuted). _spin_fields adds pi to
  the right ascension, so turning by zero is half a turn (C139_rest_refuted).
* **C140** core_scheduler.py: get_healpix_maps() and get_basis_functions() without
  an index raise TypeError once flush_queue has put the index away, although a
  survey did add to the queue (C140_latest_refuted); surveys_df(-1) compares the
  tier as given, so it shows rewards of surveys not evaluated and never marks the
  choice (C140_end_refuted); an empty tier raises KeyError (C140_empty_refuted).
* **C141** vary_exptime.py: calc_target_m5s takes 90 from altitudes beyond the
  zenith where they should be taken from 180: a pixel that crosses the meridian just
  south of the zenith is put at the horizon (C141_south_refuted); the default of 65
  degrees is not touched at the latitude of the site (C141_high). Altitudes below 0
  give negative airmass and greater depths (C141_below_refuted).
* **C142** almanac.py: hours with the sun above 10 degrees are not in the table, so
  azimuths that go more than half a turn in that gap are given on the other side
  (C142_gap_refuted, kind linear); with the default kind a phase can be negative
  (C142_phase_refuted).
* **C143** utils.py 417: columns are told apart by a fall of y only; a column
  starting at or above the top of the one before is joined to it, and in a reversed
  part the later column comes first (C143_skip_refuted).
* **C145** parallel_utils.py 32-34: after unlink() the buffer is None, so read() and
  copy() return an uninitialised array instead of raising (C145_stale_refuted);
  views taken before are left on unmapped memory (C145_dangling_refuted); an array
  of size 0 is refused with ValueError.
* **C146** dd_surveys.py 199-220 with feasibility_funcs.py 497 and 651: LookAheadDdf
  and SoftDelay divide by the number of all visits, so a survey with dd_bfs raises
  ZeroDivisionError at the start of a survey (C146_first_refuted); AvoidDirectWind
  in the same list is a mask, which a DeepDrillingSurvey never evaluates, so
  wind_speed_maximum does nothing.
* **C148** code_utilities.py 47-50: "del target" deletes only the name of the loop,
  so a target that is not a dict or list is closed again by every later call
  (C148_again_refuted), and there an AttributeError of its close() is not passed
  over.
* **C149** simple_examples.py 726-728: VisitGap looks for the name within the note,
  so a field "M4" waits for visits of "M49" (C149_names_refuted); there is no
  TimeToTwilight, so 120 visits may be asked for in the last minute of the night
  (C149_end_refuted).
* **C150** footprints.py 599 and 626: the pixel area is that of the last map, so
  maps of different nside give a factor that depends on their order
  (C150_mixed_refuted); an empty dict raises UnboundLocalError and goals that are
  nowhere positive give inf.
* **C151** kinem_model.py 46: percentages above 125 are cut with a printed message,
  percentages of zero or below are not refused: 0 gives a speed of 0 and an infinite
  slew, a negative one gives NaN.
* **C153** kinem_model.py 646-656: dom_slit_diam is half the field of view, so
  dom_slit_diam/2 - camera_fov/2 is negative and the shift meant to shorten the way
  of the dome lengthens it by half a field of view. With a dome that accelerates
  quickly lax_dome=True is then slower than lax_dome=False (C153_lax_refuted); with
  the default dome it is not (C153_lax).
* **C154** kinem_model.py 712 and 718: bandname is one string, so np.where(bandname
  != self.current_band) is the index 0 alone. Called with several targets in another
  band, slew_times adds the band change to the first target only and takes the
  rotator time away from the first only (C154_band_refuted); with
  constant_band_changetime=False and rotator angles it raises ValueError for more
  than one target (C154_rotator_refuted). numpy 2.1 and later raise in np.where on a
  single value.
* **C155** sim_runner never returns with step_none=0 and nothing to observe
  (C155_step_refuted) or with an extra time per visit that takes the visit back
  (C155_overhead_refuted); ModelObservatory.check_mjd never returns if the cloud
  record stays over the limit from some time on (C155_clouds_refuted: there is no
  last date to the search of model_observatory.py 621-625).
* **C157** sim_runner.py 170-173 and 288-289: with record_rewards=True and a
  scheduler made without keep_rewards (the default) the only table recorded is None,
  and pd.concat raises ValueError after the whole simulation is over, so nothing is
  returned (C157_keep_refuted).
* **C158** kinem_model.py 851-861: the rate compared with shutter_2motion_min_time
  adds the readouts of all exposures but one to the time of a single exposure, so
  with three or more exposures a visit can be too fast for the shutter without a
  warning; the visit itself is not slowed down, though the docstring of observe says
  a minimum time between the starts of exposures is imposed (C158_warned_refuted).
* **C159** plan_night_survey.py 55 and 57 look up features.Last_observed and
  bfs.Moon_avoidance_basis_function; both classes are now named otherwise
  (LastObserved, MoonAvoidanceBasisFunction), so every PlanAheadSurvey(...) raises
  AttributeError, though the class is exported by the package (C159_made_refuted).
  Beyond that, lines 94-95 index hour_angle, while conditions.lmst from the model
  observatory is a single number.
* **C160** basis_functions.py 536 and 1151 read conditions.sunRA and 626 reads
  conditions.season; Conditions has sun_ra and no season, so CadenceInSeason and
  SeasonCoverage raise AttributeError at every call, and CadenceEnhanceTrapezoid at
  every call once made; with its default season_limit=None it cannot be made, for
  line 1124 divides None by 12 (C160_used_refuted).
* **C161** data_versions returns None when the data directory has no versions.txt
  (data_sets.py 34-36), and get_info of the model observatory iterates over it:
  sim_runner with a filename raises TypeError after the whole simulation is over,
  with nothing written or returned (C161_lost_refuted). A line without a comma in
  that file has the same effect (C161_line_refuted), so does a list in extra_info
  (C161_list_refuted). Values are cut to 200 characters without a word
  (C161_long_refuted).
* **C162** read_fields takes every third number from three starts and never compares
  the counts. Broadcasting hides that for the smallest files: four numbers make two
  fields, the second with y and z of the first (C162_cut_refuted), two numbers make
  one ra and no dec (C162_two_refuted). Longer files that were cut raise ValueError
  (C162_cut). ra is from -180 to 180 degrees.
