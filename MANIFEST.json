{
 "claims": [
  {
   "property": "C01",
   "status": "proved",
   "theorems": [
    "C01_best_of_optimizer",
    "C01_best_overall"
   ],
   "note": ""
  },
  {
   "property": "C02",
   "status": "proved",
   "theorems": [
    "C02_length",
    "C02_call_ids"
   ],
   "note": ""
  },
  {
   "property": "C03",
   "status": "proved",
   "theorems": [
    "C03_history",
    "C03_isolation",
    "C03_clear"
   ],
   "note": "clear_cache keeps the data when a trajectory plot was requested, as documented; C03_clear is about the other case"
  },
  {
   "property": "C04",
   "status": "proved",
   "theorems": [
    "C04_largest"
   ],
   "note": ""
  },
  {
   "property": "C05",
   "status": "proved",
   "theorems": [
    "C05_rows",
    "C05_close",
    "C05_no_error"
   ],
   "note": "for the order of calls the manager makes (ids 1,2,3..., one history per optimizer, evaluations while the history is open with one value per extra column)"
  },
  {
   "property": "C06",
   "status": "proved",
   "theorems": [
    "C06_same_answers",
    "C06_extra_columns_refuted",
    "C06_cleared_history_refuted"
   ],
   "note": "same order of calls; the manager always builds the file log with build_traj_plot=True. The two refuted theorems are findings about what lies outside the property: extra columns, and the configuration without trajectory plot"
  },
  {
   "property": "C07",
   "status": "proved",
   "theorems": [
    "C07_result_is_best_at_decisions",
    "C07_result_is_best_but_current",
    "C07_result_never_worse",
    "C07_counters_agree",
    "C07_returned_result_is_best"
   ],
   "note": "the final result lacks the vector only if it is empty"
  },
  {
   "property": "C08",
   "status": "proved",
   "theorems": [
    "C08_slots_within_jobs"
   ],
   "note": ""
  },
  {
   "property": "C09",
   "status": "proved",
   "theorems": [
    "C09_ids_are_consecutive",
    "C09_ids_are_known"
   ],
   "note": ""
  },
  {
   "property": "C10",
   "status": "proved",
   "theorems": [
    "C10_victims_are_fair",
    "C10_killed_once"
   ],
   "note": "\"has evaluations\" is the evaluation table of the log"
  },
  {
   "property": "C11",
   "status": "proved",
   "theorems": [
    "C11_nothing_from_the_dead",
    "C11_dead_letters_are_dropped"
   ],
   "note": ""
  },
  {
   "property": "C12",
   "status": "proved",
   "theorems": [
    "C12_hunts_are_spaced"
   ],
   "note": ""
  },
  {
   "property": "C13",
   "status": "partial",
   "theorems": [
    "C13_ends_once_partial",
    "C13_ends_once_refuted"
   ],
   "note": "holds without checkpoints; refuted with a checkpoint: a killed, still living optimizer reports its normal end while the checkpoint waits"
  },
  {
   "property": "C14",
   "status": "proved",
   "theorems": [
    "C14_no_start_after_stop"
   ],
   "note": ""
  },
  {
   "property": "C15",
   "status": "partial",
   "theorems": [
    "C15_stopped_run_ends_normally_refuted",
    "C15_told_to_stop_ends_normally_partial"
   ],
   "note": "refuted: the loop tries to fill slots before it judges and raises RuntimeError; proved that a judgement to stop ends the run without a crash when histories are retained and there are no checkpoints but those on request"
  },
  {
   "property": "C16",
   "status": "proved",
   "theorems": [
    "C16_judgements_are_honest",
    "C16_stop_means_stop",
    "C16_left_only_when_told"
   ],
   "note": ""
  },
  {
   "property": "C17",
   "status": "proved",
   "theorems": [
    "C17_overshoot_is_bounded",
    "C17_any_combination",
    "C17_resumed"
   ],
   "note": "the bound is attained"
  },
  {
   "property": "C18",
   "status": "partial",
   "theorems": [
    "C18_children_cannot_crash_the_manager_partial",
    "C18_normal_end_is_harmless_refuted",
    "C18_crash_causes",
    "C18_crash_causes_no_checkpoints",
    "C18_crash_causes_wordless",
    "C18_restart_files"
   ],
   "note": "refuted when histories are not retained, and by messages to optimizers that have just gone; with retained histories the possible crashes are enumerated for all settings"
  },
  {
   "property": "C19",
   "status": "proved",
   "theorems": [
    "C19_the_dead_are_accounted_for"
   ],
   "note": "one inspection, from any state; an unread error message delays the accounting by one iteration, which the statement says"
  },
  {
   "property": "C20",
   "status": "proved",
   "theorems": [
    "C20_names",
    "C20_only_the_named",
    "C20_all_the_named",
    "C20_others_stay"
   ],
   "note": ""
  },
  {
   "property": "C21",
   "status": "partial",
   "theorems": [
    "C21_who_is_told",
    "C21_everyone_is_told",
    "C21_nothing_told_without_improvement_refuted"
   ],
   "note": "refuted for best value zero, which is told again at every evaluation; who is told, and that everybody is, is proved"
  },
  {
   "property": "C22",
   "status": "proved",
   "theorems": [
    "C22_value",
    "C22_shared_members",
    "C22_exceptions",
    "C22_members"
   ],
   "note": ""
  },
  {
   "property": "C23",
   "status": "proved",
   "theorems": [
    "C23_lazy",
    "C23_text",
    "C23_junction",
    "C23_shared_member_refuted"
   ],
   "note": "for trees of distinct members, as stated; the refuted theorem shows what happens when one member object is used twice"
  },
  {
   "property": "C24",
   "status": "partial",
   "theorems": [
    "C24_leftmost",
    "C24_any_position_partial",
    "C24_position_refuted"
   ],
   "note": "holds where the checker is always asked (leftmost position); refuted to the right of a lazily evaluated junction, where it only sees the moments it is asked"
  },
  {
   "property": "C25",
   "status": "proved",
   "theorems": [
    "C25_stable",
    "C25_threshold",
    "C25_one_limit"
   ],
   "note": ""
  },
  {
   "property": "C26",
   "status": "partial",
   "theorems": [
    "C26_recorded",
    "C26_min_func_calls",
    "C26_best_unmoving",
    "C26_best_unmoving_short",
    "C26_best_unmoving_nan",
    "C26_evals_unmoving",
    "C26_evals_unmoving_short",
    "C26_evals_unmoving_nonfinite",
    "C26_last_points_invalid",
    "C26_type_hunter",
    "C26_parameter_distance",
    "C26_parameter_distance_all",
    "C26_parameter_distance_refuted",
    "C26_step_size",
    "C26_step_size_short",
    "C26_step_size_one",
    "C26_space"
   ],
   "note": "all hunters as documented, except ParameterDistance with test_all=True after histories were discarded (refuted)"
  },
  {
   "property": "C27",
   "status": "partial",
   "theorems": [
    "C27_time_annealing",
    "C27_time_annealing_survives",
    "C27_value_annealing_survives",
    "C27_value_annealing",
    "C27_survival_monotone",
    "C27_survival_twice",
    "C27_value_annealing_refuted"
   ],
   "note": "the survival guarantees hold; the documented kill probability at twice the hunter value is refuted (it is the survival probability)"
  },
  {
   "property": "C28",
   "status": "proved",
   "theorems": [
    "C28_fits",
    "C28_forbidden",
    "C28_forbidden_forever",
    "C28_none",
    "C28_chain_none",
    "C28_random_none_only",
    "C28_none_only_refuted",
    "C28_parse"
   ],
   "note": "the refuted theorem concerns the converse documented by the base class: the cycle answers None although another configuration fits"
  },
  {
   "property": "C29",
   "status": "proved",
   "theorems": [
    "C29_cyclic",
    "C29_no_advance"
   ],
   "note": ""
  },
  {
   "property": "C30",
   "status": "partial",
   "theorems": [
    "C30_chain_partial",
    "C30_jump_refuted",
    "C30_stop_refuted"
   ],
   "note": "holds when at most one threshold is passed between two requests; refuted when several are jumped and when there are as many thresholds as optimizers"
  },
  {
   "property": "C31",
   "status": "proved",
   "theorems": [
    "C31_exactly_once",
    "C31_raises",
    "C31_order",
    "C31_producer_order",
    "C31_put_pushes",
    "C31_all_delivered",
    "C31_no_deadlock",
    "C31_full_kept_refuted"
   ],
   "note": "the refuted theorem concerns put with block=False on an activated cache, which GloMPO never calls"
  },
  {
   "property": "C32",
   "status": "proved",
   "theorems": [
    "C32_marker_last",
    "C32_single"
   ],
   "note": ""
  },
  {
   "property": "C33",
   "status": "partial",
   "theorems": [
    "C33_log_complete_when_written_partial",
    "C33_log_holds_what_the_manager_counts_refuted"
   ],
   "note": "refuted: the log is written before the queued evaluations are processed"
  },
  {
   "property": "C34",
   "status": "partial",
   "theorems": [
    "C34_name_follows_format",
    "C34_count_is_next",
    "C34_recognition",
    "C34_new_name_is_recognised_partial",
    "C34_new_name_is_new_partial",
    "C34_question_mark_refuted",
    "C34_thousand_refuted",
    "C34_dot_refuted",
    "C34_two_counters_refuted"
   ],
   "note": "Refuted for formats with ?, with a dot (archive name is cut), with two counters and after the 1000th checkpoint; proved for all other formats, dates and directories."
  },
  {
   "property": "C35",
   "status": "partial",
   "theorems": [
    "C35_which_remain",
    "C35_most_recent_partial",
    "C35_foreign_file_refuted",
    "C35_new_checkpoint_deleted_refuted",
    "C35_leftover_counts_refuted"
   ],
   "note": "Exact characterisation proved for all formats and directories; the stated property holds for formats whose only key is %(count) when every matching entry is an archive; refuted for foreign files with a matching beginning, formats that do not sort by time, and leftover directories."
  },
  {
   "property": "C36",
   "status": "partial",
   "theorems": [
    "C36_survives_death_partial",
    "C36_survives_handled_failure",
    "C36_orderly_processes",
    "C36_history_names_complete_archives",
    "C36_lost_on_other_failure_refuted",
    "C36_lost_by_second_death_refuted",
    "C36_lost_by_next_failure_refuted",
    "C36_history_forgets_refuted",
    "C36_torn_archive_left_refuted"
   ],
   "note": "Proved: death at any step of one call leaves a complete copy, TarError restores it. Refuted: any other exception while the archive is written (disk full, interrupt) deletes it, and a process started after a death deletes or overwrites the only copy."
  },
  {
   "property": "C37",
   "status": "partial",
   "theorems": [
    "C37_saved_only_when_paused",
    "C37_resumed",
    "C37_pauses_until_released",
    "C37_dead_waited_for_forever",
    "C37_checkpoints_end_refuted"
   ],
   "note": "the order and the resumption are proved for all runs; refuted: an optimizer that dies after its report is waited for for ever"
  },
  {
   "property": "C38",
   "status": "partial",
   "theorems": [
    "C38_killed_during_checkpoint_not_saved_partial",
    "C38_killed_not_saved_refuted"
   ],
   "note": "refuted: an optimizer killed before the checkpoint that still lives is saved"
  },
  {
   "property": "C39",
   "status": "proved",
   "theorems": [
    "C39_slots_fit",
    "C39_fails_iff",
    "C39_rebuilt",
    "C39_never_more_refuted"
   ],
   "note": "Also shown: the equal division may increase the slots of an optimizer."
  },
  {
   "property": "C40",
   "status": "partial",
   "theorems": [
    "C40_rollback_is_exact",
    "C40_resume_partial",
    "C40_crashed_run_refuted",
    "C40_stale_counter_refuted",
    "C40_started_without_evaluation_refuted",
    "C40_leftover_table_refuted",
    "C40_log_behind_refuted",
    "C40_older_checkpoint_refuted"
   ],
   "note": "The rollback is exact for every file content; whole runs are proved for closed logs with agreeing counters and no leftover table; refuted for crashed runs, stale counters, optimizers started without further evaluations, leftover tables and logs behind the manager."
  },
  {
   "property": "C41",
   "status": "proved",
   "theorems": [
    "C41_every_use",
    "C41_reported_once",
    "C41_farewell",
    "C41_crash_reported",
    "C41_messages_end"
   ],
   "note": "For every task (failing ones and full queues included), every sequence of uses."
  },
  {
   "property": "C42",
   "status": "partial",
   "theorems": [
    "C42_budget_and_bounds",
    "C42_result_is_best",
    "C42_stops",
    "C42_saved",
    "C42_resume_partial",
    "C42_resume_refuted"
   ],
   "note": "Uninterrupted runs: proved. Resumed runs: budget and bounds proved, the best is that of all evaluations but the last before the checkpoint; refuted that it is the best of all."
  },
  {
   "property": "C43",
   "status": "proved",
   "theorems": [
    "C43_accepted_iff",
    "C43_refused"
   ],
   "note": "Pairs of floats, NaN and infinities included."
  },
  {
   "property": "C44",
   "status": "partial",
   "theorems": [
    "C44_bounds_of_generators",
    "C44_random",
    "C44_single",
    "C44_incumbent",
    "C44_perturbation",
    "C44_exploit_partial",
    "C44_exploit_at_the_end",
    "C44_basin",
    "C44_basin_memory",
    "C44_single_refuted",
    "C44_incumbent_refuted",
    "C44_exploit_fails_in_manager",
    "C44_exploit_refuted",
    "C44_basin_refuted",
    "C44_basin_step_refuted"
   ],
   "note": "Random, bounded perturbation: proved. Exploit-explore: proved for logs in which every optimizer has a finite value; refuted as used by the manager. Refuted for given single points, the empty incumbent and basin hopping."
  },
  {
   "property": "C45",
   "status": "proved",
   "theorems": [
    "C45_running_minimum",
    "C45_accepts_numbers"
   ],
   "note": "Lists with NaN or non-numbers raise AssertionError."
  },
  {
   "property": "C46",
   "status": "partial",
   "theorems": [
    "C46_unravel",
    "C46_memory",
    "C46_no_text_lost",
    "C46_formatting_fails_iff",
    "C46_indented",
    "C46_indented_results",
    "C46_groups",
    "C46_unravel_refuted",
    "C46_memory_refuted",
    "C46_memory_infinite_refuted",
    "C46_groups_refuted"
   ],
   "note": "Proved for objects whose iterators end, finite numbers up to 1024^9, all texts, and bounds whose equality implies equal texts; refuted outside."
  },
  {
   "property": "C47",
   "status": "partial",
   "theorems": [
    "C47_window_when_redrawn",
    "C47_window_partial",
    "C47_window_elitism_partial",
    "C47_window_refuted",
    "C47_elitism_partial",
    "C47_elitism_best",
    "C47_elitism_gap_refuted",
    "C47_elitism_nan_refuted",
    "C47_marker_on_trajectory",
    "C47_marker_window_refuted",
    "C47_marker_lost_refuted",
    "C47_streams",
    "C47_no_failure",
    "C47_ranges"
   ],
   "note": "Window: exact whenever the plot is redrawn, late by at most events_per_flush changes otherwise. Best value: proved without NaN while the optimizer stays in the window; refuted outside."
  },
  {
   "property": "C48",
   "status": "partial",
   "theorems": [
    "C48_real_scaled_real",
    "C48_scaled_real_scaled",
    "C48_scaled_range",
    "C48_fixed_parameter_refuted",
    "C48_abs_rel_abs",
    "C48_rel_abs_rel",
    "C48_inactive",
    "C48_active_indices"
   ],
   "note": "Proved for all vectors whose parameters have different limits, and for all indices; a parameter with equal limits becomes NaN (refuted)."
  },
  {
   "property": "C49",
   "status": "partial",
   "theorems": [
    "C49_ackley",
    "C49_alpine01",
    "C49_deceptive",
    "C49_easom",
    "C49_griewank",
    "C49_least_squares",
    "C49_levy",
    "C49_qing",
    "C49_rastrigin",
    "C49_rosenbrock",
    "C49_stochastic",
    "C49_trigonometric",
    "C49_zerosum",
    "C49_schwefel_partial",
    "C49_styblinski_partial",
    "C49_vincent_partial",
    "C49_langermann_partial",
    "C49_michalewicz_partial",
    "C49_michalewicz_point_refuted",
    "C49_michalewicz_steepness_refuted",
    "C49_alpine02_partial",
    "C49_alpine02_refuted",
    "C49_rana_refuted",
    "C49_shekel_refuted",
    "C49_shekel_shift_refuted",
    "C49_shubert_sign_refuted",
    "C49_shubert_one_dimension_refuted",
    "C49_zerosum_refuted",
    "C49_given_points_refuted"
   ],
   "note": "Exact real arithmetic. Twelve functions attain their documented minimum; for Schwefel, Styblinski-Tang and Vincent the documented numbers are rounded; Langermann is evaluated at its documented point but bounded only roughly; Alpine02, Rana, Shekel, Shubert, ZeroSum and Michalewicz refuted."
  },
  {
   "property": "C50",
   "status": "partial",
   "theorems": [
    "C50_toggle",
    "C50_toggle_out_of_range",
    "C50_nothing_to_toggle_refuted",
    "C50_reax",
    "C50_reax_all_forbidden"
   ],
   "note": "Proved for non-empty lists of one kind of key; the empty list (also: all forbidden) raises IndexError."
  },
  {
   "property": "C51",
   "status": "partial",
   "theorems": [
    "C51_stored_active",
    "C51_stored_all",
    "C51_stored_scaled",
    "C51_warning_partial",
    "C51_false_warning_refuted",
    "C51_missing_warning_refuted",
    "C51_missing_warning_full_refuted"
   ],
   "note": "The stored values: proved. The warning: exact only if all parameters are active, refuted both ways otherwise."
  },
  {
   "property": "C52",
   "status": "partial",
   "theorems": [
    "C52_columns_partial",
    "C52_failed_infinite",
    "C52_empty_validation_set_refuted",
    "C52_failed_calculation_refuted"
   ],
   "note": "Proved for successful calculations without or with a non-empty validation set."
  },
  {
   "property": "C53",
   "status": "partial",
   "theorems": [
    "C53_loaded",
    "C53_pickle_priority_refuted"
   ],
   "note": "With both files the yaml file is loaded on top of the pickle."
  },
  {
   "property": "C54",
   "status": "partial",
   "theorems": [
    "C54_lower_bound",
    "C54_two_atoms",
    "C54_gradient_partial",
    "C54_gradient_refuted",
    "C54_coincident_atoms_refuted",
    "C54_estimate_refuted"
   ],
   "note": "The jacobian is the gradient for sigma = 1 only; coinciding atoms have no energy; the estimate of the minimum is given for n*d = 3 only."
  },
  {
   "property": "C55",
   "status": "partial",
   "theorems": [
    "C55_terminates",
    "C55_no_errors",
    "C55_calm",
    "C55_snapshot",
    "C55_saved",
    "C55_released",
    "C55_log_complete_refuted",
    "C55_save_error_blocks",
    "C55_save_error_refuted",
    "C55_exception_refuted",
    "C55_ended_saved_refuted"
   ],
   "note": "Proved for every fair schedule in which no optimizer raises, with the results in the cache of the queue counted to the log; those results are missing in the saved log, and an optimizer that raises blocks or ends the run (refuted)."
  },
  {
   "property": "C56",
   "status": "partial",
   "theorems": [
    "C56_timeout_ends",
    "C56_dead",
    "C56_ends",
    "C56_one_more",
    "C56_accounting",
    "C56_full_queue_refuted",
    "C56_crash_refuted",
    "C56_lost_refuted"
   ],
   "note": "With timeouts the shutdown always finishes; without (threads) if the queue has two free places per living optimizer, and it deadlocks with the standard queue and six threads (refuted). Threads can survive a crash; results in the queue at the end are thrown away (refuted)."
  },
  {
   "property": "C57",
   "status": "partial",
   "theorems": [
    "C57_false_values",
    "C57_accepted_iff",
    "C57_given",
    "C57_defaults",
    "C57_twice",
    "C57_slots_partial",
    "C57_one_cpu_refuted",
    "C57_zero_refuted",
    "C57_timeout_zero_refuted"
   ],
   "note": "At least one slot is proved for two or more processors; on one processor the default is zero slots; max_jobs=0 and end_timeout=0 silently become the default (refuted)."
  },
  {
   "property": "C58",
   "status": "partial",
   "theorems": [
    "C58_same_as_setup_partial",
    "C58_saved",
    "C58_kept",
    "C58_new_session",
    "C58_share_refuted",
    "C58_timeout_refuted",
    "C58_backend_refuted",
    "C58_unchecked_refuted"
   ],
   "note": "Proved for every argument but share_best_solutions and visualisation_args (documented exception) and for values that setup takes as they are; share_best_solutions is ignored, unknown backends mean threads, values are not checked (refuted)."
  },
  {
   "property": "C59",
   "status": "partial",
   "theorems": [
    "C59_first",
    "C59_round_trip",
    "C59_none",
    "C59_saving_partial",
    "C59_nothing",
    "C59_type_error_refuted",
    "C59_fallback_refuted",
    "C59_unpickling_refuted",
    "C59_false_task_refuted"
   ],
   "note": "The order of the candidates and the round trip are proved; a failing loader or unpickling is not followed by the next candidate, dill raising TypeError stops the checkpoint, a task that is a false value is replaced (refuted)."
  },
  {
   "property": "C60",
   "status": "partial",
   "theorems": [
    "C60_setup_retry_partial",
    "C60_at_init_refuted",
    "C60_load_early",
    "C60_load_sticks",
    "C60_load_retry_refuted"
   ],
   "note": "Proved for setup without a failing checkpoint at its end and for loads failing before the manager file is read; every later failure leaves a manager that refuses to be initialised (proved and refuted)."
  },
  {
   "property": "C61",
   "status": "partial",
   "theorems": [
    "C61_used_partial",
    "C61_clock_partial",
    "C61_limit_partial",
    "C61_summary_partial",
    "C61_after_end_refuted",
    "C61_before_start_refuted",
    "C61_second_start_refuted",
    "C61_summer_time_refuted"
   ],
   "note": "Proved for every proper use (one session per manager, checkpoints during sessions) with a steady local clock; checkpoints outside a session, a second start and a change to summer time give wrong durations (refuted)."
  },
  {
   "property": "C62",
   "status": "partial",
   "theorems": [
    "C62_values",
    "C62_usable_iff",
    "C62_new_file_refuted",
    "C62_summary_files_refuted"
   ],
   "note": "Exact condition proved: in memory, or in a file before and after with that file present; a new log file and a raised summary_files are refuted."
  },
  {
   "property": "C63",
   "status": "partial",
   "theorems": [
    "C63_told",
    "C63_gfls",
    "C63_gfls_restart_refuted"
   ],
   "note": "Proved for all runs; after a restart of a parallel GFLS the evaluations in progress at the checkpoint are lost (refuted)."
  },
  {
   "property": "C64",
   "status": "partial",
   "theorems": [
    "C64_cma",
    "C64_success",
    "C64_stop",
    "C64_converged_refuted",
    "C64_nothing_refuted",
    "C64_gfls_empty",
    "C64_gfls_refuted",
    "C64_scipy_refuted"
   ],
   "note": "The CMA result is proved to be the lowest value told; success is never reported for a converged run, a run that stops before its first population raises, GFLS never returns its result, scipy never its success (refuted)."
  },
  {
   "property": "C65",
   "status": "partial",
   "theorems": [
    "C65_injections",
    "C65_first_refuted",
    "C65_second_call_refuted",
    "C65_popsize_refuted"
   ],
   "note": "Spacing, origin and improvement proved for all runs; a vector sent during the first population is lost, and a second call of minimize keeps the counter and loses the population size (refuted)."
  },
  {
   "property": "C66",
   "status": "partial",
   "theorems": [
    "C66_stops",
    "C66_alone_never",
    "C66_alone_refuted",
    "C66_sequence_refuted",
    "C66_restart_raises",
    "C66_restart_refuted",
    "C66_repeated_refuted",
    "C66_scipy_refuted"
   ],
   "note": "Proved for fresh runs within a manager with no or one callback; stand-alone runs never stop, a sequence of callbacks and every restart without one crash at the first tell (refuted)."
  },
  {
   "property": "C67",
   "status": "partial",
   "theorems": [
    "C67_streams",
    "C67_own",
    "C67_never_unwrapped",
    "C67_zombie_refuted"
   ],
   "note": "Proved for all traces in which no manager starts while a redirected thread of another is running; otherwise refuted. The stream of the program is never restored."
  },
  {
   "property": "C68",
   "status": "partial",
   "theorems": [
    "C68_split_partial",
    "C68_split",
    "C68_raises",
    "C68_lost_refuted",
    "C68_alone_refuted"
   ],
   "note": "Exact content of all files proved; with a handler above the level of the logger early records are lost, and logging of an optimizer without number raises (refuted)."
  },
  {
   "property": "C69",
   "status": "partial",
   "theorems": [
    "C69_refuses",
    "C69_purge",
    "C69_session",
    "C69_streams_partial",
    "C69_restart",
    "C69_continue_raises",
    "C69_continue_refuted",
    "C69_streams_refuted",
    "C69_destroyed_refuted",
    "C69_midway_refuted"
   ],
   "note": "Purge and content after a session proved; a run cannot be continued in its directory with the default settings, old print streams may stay, and a refused restart may have deleted results (refuted)."
  },
  {
   "property": "C70",
   "status": "partial",
   "theorems": [
    "C70_alarm",
    "C70_bound",
    "C70_old_crash_refuted",
    "C70_silent_never",
    "C70_own_evaluations_never",
    "C70_first_crash_refuted",
    "C70_refines",
    "C70_run_bound",
    "C70_run_alarm",
    "C70_run_fires"
   ],
   "note": "Necessary condition of the alarm and the bound 5 + 2 max_jobs (reached) proved. Refuted: with six or more slots one crash before the first evaluation, or one old crash, suffices; deaths without a traceback and generators with own evaluations are never noticed."
  },
  {
   "property": "C71",
   "status": "partial",
   "theorems": [
    "C71_moved",
    "C71_within",
    "C71_counted",
    "C71_uncounted",
    "C71_all_counted_refuted",
    "C71_resets",
    "C71_temperature",
    "C71_returns",
    "C71_narrow_never"
   ],
   "note": "The evaluations of resets are not counted (refuted); with a box narrow next to the tolerance of np.isclose the second call never returns."
  },
  {
   "property": "C72",
   "status": "partial",
   "theorems": [
    "C72_ends_partial",
    "C72_story",
    "C72_never_raises",
    "C72_best",
    "C72_records",
    "C72_exit_refuted",
    "C72_dead_refuted",
    "C72_converged_refuted",
    "C72_movie",
    "C72_save_raises",
    "C72_lost_refuted",
    "C72_begin_refuted"
   ],
   "note": "Proved if the session can be opened and closed and for everything but SystemExit, which is swallowed without stopping the children. A failure while saving loses the result; the reason may be wrong (refuted)."
  },
  {
   "property": "C73",
   "status": "partial",
   "theorems": [
    "C73_package_partial",
    "C73_package_refuted",
    "C73_scope",
    "C73_interrupt_refuted"
   ],
   "note": "Proved for functions that raise no ImportError; others are reported as the package missing. Ctrl-C inside a method of the scope is swallowed."
  },
  {
   "property": "C74",
   "status": "partial",
   "theorems": [
    "C74_columns",
    "C74_exact",
    "C74_all_or_nothing",
    "C74_integers",
    "C74_fraction_refuted",
    "C74_ragged_refuted",
    "C74_repeated_refuted",
    "C74_numpy_refuted",
    "C74_none_refuted",
    "C74_text_refuted",
    "C74_params_headers"
   ],
   "note": "Proved for results of the types of the first, within the limits of the columns; otherwise values are changed or the whole chunk is lost, and numpy integers and booleans end the run (refuted). The headers of ParAMS do not fit with an empty validation set."
  },
  {
   "property": "C75",
   "status": "partial",
   "theorems": [
    "C75_three_files",
    "C75_three_files_total",
    "C75_default",
    "C75_params_file_refuted",
    "C75_incomplete_refuted"
   ],
   "note": "Proved for the three ffield files and for no file; ranges of a params file are not checked, and two of three files are ignored without notice (refuted)."
  },
  {
   "property": "C76",
   "status": "partial",
   "theorems": [
    "C76_sum",
    "C76_sign_never",
    "C76_least_squares_refuted",
    "C76_unscaled_refuted",
    "C76_failed",
    "C76_reweigh",
    "C76_reweigh_stopped",
    "C76_reweigh_half_refuted"
   ],
   "note": "New weights are proved to reach the named entries, if all exist; scaled residuals are already squares, unscaled ones ignore weights, and after a failure there is one residual or NaN (refuted or stated exactly)."
  },
  {
   "property": "C77",
   "status": "partial",
   "theorems": [
    "C77_sound",
    "C77_complete",
    "C77_never",
    "C77_posted_partial",
    "C77_graveyard",
    "C77_left",
    "C77_recorded",
    "C77_hunt",
    "C77_backlog_refuted",
    "C77_checkpoint_refuted",
    "C77_converged_refuted",
    "C77_hunted_refuted"
   ],
   "note": "Exact in terms of what the manager has handled; in terms of what was posted only if nothing of it waits in the queue (refuted otherwise, and for long checkpoints). Converged and hunted optimizers can be recorded as forced (refuted)."
  },
  {
   "property": "C78",
   "status": "partial",
   "theorems": [
    "C78_trajectory",
    "C78_best_fx",
    "C78_best_shows",
    "C78_trials",
    "C78_cleared_refuted",
    "C78_marks",
    "C78_nevergrad_never",
    "C78_nevergrad_refuted"
   ],
   "note": "Proved for the log of a session with the trajectory plot requested, without best_fx; one NaN ends a plot with best_fx, dropped optimizers spoil the other plots, and converged Nevergrad optimizers get no mark (refuted or stated exactly)."
  },
  {
   "property": "C79",
   "status": "proved",
   "theorems": [
    "C79_scale",
    "C79_order"
   ],
   "note": "log10 is an arbitrary function that is monotone on positive numbers."
  },
  {
   "property": "C80",
   "status": "partial",
   "theorems": [
    "C80_entries",
    "C80_names",
    "C80_settings",
    "C80_objects",
    "C80_twice_refuted",
    "C80_kept",
    "C80_backend",
    "C80_backend_refuted",
    "C80_resumed_refuted"
   ],
   "note": "Proved for arguments and objects, and for the backend with threads; with processes the configured backend reaches only the first optimizer of a dictionary and is removed from it, and a resumed optimizer gets neither it nor the arguments of minimize (refuted)."
  },
  {
   "property": "C81",
   "status": "partial",
   "theorems": [
    "C81_recorded",
    "C81_statistics",
    "C81_made",
    "C81_nothing",
    "C81_denied_refuted",
    "C81_reported",
    "C81_loaded_refuted",
    "C81_frequency_raises"
   ],
   "note": "Proved as long as psutil answers; a refused reading ends the session and puts the histories out of step, and a summary written from a loaded checkpoint has no run information (refuted)."
  },
  {
   "property": "C82",
   "status": "partial",
   "theorems": [
    "C82_order",
    "C82_content",
    "C82_column",
    "C82_digits",
    "C82_rows",
    "C82_rows_default",
    "C82_rows_refuted"
   ],
   "note": "Proved for the message; the estimate of rows depends on the order in which limits are written (refuted)."
  },
  {
   "property": "C83",
   "status": "partial",
   "theorems": [
    "C83_native",
    "C83_raises_iff",
    "C83_object",
    "C83_generator",
    "C83_selector",
    "C83_content",
    "C83_readable",
    "C83_written",
    "C83_levels",
    "C83_elements_refuted",
    "C83_task_name_never",
    "C83_running_raises",
    "C83_readable_refuted",
    "C83_kept_refuted",
    "C83_round_trip",
    "C83_one_line",
    "C83_hidden",
    "C83_nothing_to_show",
    "C83_solution",
    "C83_task",
    "C83_literal"
   ],
   "note": "Proved with the exact condition for readability; a function as spawn rule makes the file unreadable without Python, containers of their own class lose their elements, functions as task are nameless, a failing dump destroys the previous summary, and nothing can be written during a session (refuted or stated exactly)."
  },
  {
   "property": "C84",
   "status": "partial",
   "theorems": [
    "C84_options",
    "C84_others",
    "C84_reserved",
    "C84_sampler",
    "C84_sampler_refuted",
    "C84_vv_refuted",
    "C84_size_refuted",
    "C84_gfls",
    "C84_scipy",
    "C84_shgo_raises",
    "C84_basinhopping_never",
    "C84_nevergrad",
    "C84_samplers",
    "C84_zero_size",
    "C84_width_raises",
    "C84_scipy_function",
    "C84_scipy_raises",
    "C84_nevergrad_raises"
   ],
   "note": "Proved for all options but vv, for the samplers vd and vkd only as far as cma extends the options; the documented sampler names, an own vv and the size of a second call are lost, shgo cannot be called and basinhopping never gets bounds (refuted or stated exactly)."
  },
  {
   "property": "C85",
   "status": "partial",
   "theorems": [
    "C85_recorded",
    "C85_interrupted",
    "C85_cause",
    "C85_stopped",
    "C85_stopped_done",
    "C85_two_interrupts_refuted",
    "C85_stopped_refuted"
   ],
   "note": "Proved for undisturbed runs, for runs that crash without Ctrl-C and for one Ctrl-C; a second Ctrl-C during the closing leaves optimizers without an end (refuted). That stopped optimizers are recorded as stopped is proved without checkpoints and refuted with them."
  },
  {
   "property": "C86",
   "status": "partial",
   "theorems": [
    "C86_none",
    "C86_requested",
    "C86_request",
    "C86_due",
    "C86_spaced",
    "C86_at_convergence",
    "C86_spaced_refuted",
    "C86_at_convergence_once_refuted"
   ],
   "note": "When a time based checkpoint is due is an answer of the outside, so nothing is proved about time frequencies. The spacing is refuted when there are also checkpoints on request, and the final checkpoint may repeat one made in the same turn."
  },
  {
   "property": "C87",
   "status": "partial",
   "theorems": [
    "C87_result_is_best_at_decisions",
    "C87_result_never_worse",
    "C87_counters_agree",
    "C87_log_knows_all_sessions",
    "C87_returned_result_is_best",
    "C87_ids_are_consecutive",
    "C87_nothing_from_the_dead",
    "C87_no_start_after_stop",
    "C87_slots_within_jobs",
    "C87_hunts_are_spaced",
    "C87_load_fails_only_as_documented",
    "C87_restarted_as_started",
    "C87_evaluations_counted",
    "C87_hunts_counted",
    "C87_counters_go_on",
    "C87_checkpoints_spaced",
    "C87_told_to_stop_ends_normally",
    "C87_crash_causes",
    "C87_guard_begins_anew",
    "C87_guard_alarm",
    "C87_guard_bound",
    "C87_late_results_are_lost_refuted",
    "C87_the_dead_stay_dead_refuted",
    "C87_every_end_is_recorded_refuted"
   ],
   "note": "Refuted: evaluations arriving while the checkpoint is made are lost to the log and the result gets worse; a killed optimizer that still answers the pause signal is saved and started again; the end of an optimizer that converged while the checkpoint was made is never recorded. The theorems on result, log and endings are for sessions without such late evaluations; those on ids, counters, slots, hunts, killed optimizers, spawning and loading are for all sessions."
  },
  {
   "property": "C88",
   "status": "proved",
   "theorems": [
    "C88_min_func_calls",
    "C88_type_hunter",
    "C88_hunters_see_everything",
    "C88_last_points_invalid",
    "C88_best_unmoving",
    "C88_n_optimizers",
    "C88_n_optimizers_in_all",
    "C88_iter_spawn_stop",
    "C88_cycle_state",
    "C88_cycle_through_the_run",
    "C88_cycle_spawns_by",
    "C88_judged_when_due",
    "C88_stopped_when_due",
    "C88_evals_unmoving",
    "C88_step_size",
    "C88_parameter_distance",
    "C88_selected",
    "C88_time_annealing",
    "C88_log_knows_the_best",
    "C88_value_annealing",
    "C88_chain_state",
    "C88_chain_through_the_run"
   ],
   "note": "for the hunters that draw random numbers: what holds whatever is drawn"
  },
  {
   "property": "C89",
   "status": "partial",
   "theorems": [
    "C89_crash_causes_partial",
    "C89_crash_causes_resumed_partial",
    "C89_hunted_have_evaluations",
    "C89_hunted_have_evaluations_resumed",
    "C89_no_hunter_crashes_a_run_refuted",
    "C89_no_selector_crashes_a_run_refuted"
   ],
   "note": "Proved for all combinations of all hunters but BestUnmoving(0), for all checkers, and for all selectors but a ChainSelector with as many classes as thresholds. Those two do crash runs (refuted)."
  },
  {
   "property": "C90",
   "status": "proved",
   "theorems": [
    "C90_optimizers_bounded",
    "C90_resumed_bounded",
    "C90_package_selectors",
    "C90_any_workers_refuted",
    "C90_no_workers_no_end"
   ],
   "note": "The refuted theorem is about configurations with no workers, which the statement excludes."
  }
 ]
}