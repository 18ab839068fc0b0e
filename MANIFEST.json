{
 "claims": [
  {
   "property": "C01",
   "status": "proved",
   "theorems": [
    "C01_batching_pairs",
    "C01_batching_single"
   ],
   "note": "Loader with/without prefetch."
  },
  {
   "property": "C02",
   "status": "proved",
   "theorems": [
    "C02_shuffle",
    "C02_shuffle_ignored_without_batch_size"
   ],
   "note": "shuffle is ignored when batch_size is None (finding, proved)."
  },
  {
   "property": "C03",
   "status": "proved",
   "theorems": [
    "C03_array_round_trip",
    "C03_views_rezip"
   ],
   "note": ""
  },
  {
   "property": "C04",
   "status": "proved",
   "theorems": [
    "C04_split",
    "C04_split_single"
   ],
   "note": ""
  },
  {
   "property": "C05",
   "status": "proved",
   "theorems": [
    "C05_chop",
    "C05_chop_idempotent",
    "C05_chop_single",
    "C05_prefix_unique"
   ],
   "note": ""
  },
  {
   "property": "C06",
   "status": "proved",
   "theorems": [
    "C06_concatenate",
    "C06_interpose",
    "C06_missing_targets_refuted",
    "C06_unknown_how"
   ],
   "note": "Misalignment with fewer targets than loaders is refuted by a witness (finding)."
  },
  {
   "property": "C07",
   "status": "proved",
   "theorems": [
    "C07_passes_restart",
    "C07_passes_restart_single",
    "C07_prefetch_transparent",
    "C07_well_formed_batches"
   ],
   "note": ""
  },
  {
   "property": "C08",
   "status": "proved",
   "theorems": [
    "C08_batching_independent",
    "C08_indivisible_rejected",
    "C08_shard_unshard",
    "C08_ensemble_batching_independent",
    "C08_ensemble_empty_rejected",
    "C08_distributed_sample_refuted",
    "C08_distributed_sample"
   ],
   "note": "Predictive.sample over several devices violates it (C08_distributed_sample_refuted)."
  },
  {
   "property": "C09",
   "status": "proved",
   "theorems": [
    "C09_drop_last",
    "C09_every_index_once",
    "C09_size_with_drop_last_refuted"
   ],
   "note": "Reported size with drop_last is wrong (refuted, finding)."
  },
  {
   "property": "C10",
   "status": "proved",
   "theorems": [
    "C10_chunks"
   ],
   "note": ""
  },
  {
   "property": "C11",
   "status": "proved",
   "theorems": [
    "C11_masking",
    "C11_length",
    "C11_plain",
    "C11_collate"
   ],
   "note": ""
  },
  {
   "property": "C12",
   "status": "proved",
   "theorems": [
    "C12_assigned_object_modified_refuted",
    "C12_creation_allowed",
    "C12_get",
    "C12_get_after_set",
    "C12_get_empty",
    "C12_input_not_modified",
    "C12_keys_above_kept",
    "C12_length_mismatch",
    "C12_missing_path_keyerror",
    "C12_missing_paths_raise",
    "C12_other_paths_kept",
    "C12_set_reads",
    "C12_shared_subdictionary_refuted"
   ],
   "note": "get-after-set, frame, last write wins, errors; input not modified on an object-heap model with deepcopy. Two refutations document aliasing limits (assigned object later modified; shared sub-dictionaries)."
  },
  {
   "property": "C13",
   "status": "proved",
   "theorems": [
    "C13_equal_labels_refuted",
    "C13_pair_frame",
    "C13_pair_unpair"
   ],
   "note": "Refutation shows the distinct-labels hypothesis is necessary."
  },
  {
   "property": "C14",
   "status": "proved",
   "theorems": [
    "C14_empty_identity",
    "C14_last_update_wins",
    "C14_no_other_leaves",
    "C14_untouched_kept"
   ],
   "note": "Plain dictionaries only."
  },
  {
   "property": "C15",
   "status": "proved",
   "theorems": [
    "C15_checkpoint_eleven_refuted",
    "C15_checkpoint_permutes",
    "C15_checkpoint_small",
    "C15_in_memory",
    "C15_long_path_refuted"
   ],
   "note": "Order change from eleven on is proved as refutations."
  },
  {
   "property": "C16",
   "status": "proved",
   "theorems": [
    "C16_disk_is_stack",
    "C16_disk_put_get",
    "C16_empty_get",
    "C16_memory_get_optimizer_refuted",
    "C16_memory_is_cell",
    "C16_memory_pull_keeps_refuted",
    "C16_memory_put_get"
   ],
   "note": "Refinement to a bounded stack (disk) and to a cell (memory); two refutations for memory repositories: get with optimizer changes the stored state, pull does not remove it."
  },
  {
   "property": "C17",
   "status": "proved",
   "theorems": [
    "C17_disk_update",
    "C17_memory_update",
    "C17_put_crash_safe",
    "C17_update_actions",
    "C17_update_crash",
    "C17_update_crash_refuted"
   ],
   "note": "Crash = prefix of the atomic file actions; put is crash safe, update is not (refuted)."
  },
  {
   "property": "C18",
   "status": "proved",
   "theorems": [
    "C18_members_independent",
    "C18_get_all",
    "C18_update_all",
    "C18_put_all_refuted"
   ],
   "note": "Any interleaving projects to the members own histories; put without index always raises (refuted)."
  },
  {
   "property": "C19",
   "status": "proved",
   "theorems": [
    "C19_get_all_refuted",
    "C19_put_get",
    "C19_same_leaves"
   ],
   "note": "Read-back equals leaf by leaf; get of all samples raises NameError when which_params is given (refuted)."
  },
  {
   "property": "C20",
   "status": "proved",
   "theorems": [
    "C20_improvements_exist",
    "C20_improvements_unique",
    "C20_inactive",
    "C20_max_is_min_negated",
    "C20_reused_trainer_refuted",
    "C20_stops_iff_stalled",
    "C20_train_stops_when_stalled",
    "C20_zero_delta"
   ],
   "note": "improvements/stalled are declarative relations over the metric history; a reused trainer object is a counterexample to \"stops only when stalled\" (C20_reused_trainer_refuted)."
  },
  {
   "property": "C21",
   "status": "proved",
   "theorems": [
    "C21_epochs_and_batches",
    "C21_short_epoch_fails",
    "C21_succeeds",
    "C21_with_accumulation"
   ],
   "note": "With and without accumulation; epochs with fewer batches than gradient_accumulation_steps fail (C21_short_epoch_fails)."
  },
  {
   "property": "C22",
   "status": "proved",
   "theorems": [
    "C22_groups",
    "C22_leftover_batches",
    "C22_mean_of_gradients",
    "C22_restored_checkpoint_refuted"
   ],
   "note": "Holds for runs from a fresh accumulator; a state restored from a mid-group checkpoint violates it (C22_restored_checkpoint_refuted)."
  },
  {
   "property": "C23",
   "status": "proved",
   "theorems": [
    "C23_frozen_never_change",
    "C23_labels_checked",
    "C23_merge",
    "C23_no_freeze_fun_refuted",
    "C23_split",
    "C23_split_merge_identity"
   ],
   "note": "For any sequence of structure-preserving updates of the trainable tree (optax updates are tree_maps). Without a freeze function get_trainable_paths returns characters of keys (C23_no_freeze_fun_refuted)."
  },
  {
   "property": "C24",
   "status": "proved",
   "theorems": [
    "C24_clip_by_norm",
    "C24_clip_by_norm_direction",
    "C24_clip_by_norm_nearly",
    "C24_clip_by_norm_small",
    "C24_clip_by_value",
    "C24_stepped_before_first",
    "C24_stepped_errors",
    "C24_stepped_in_force",
    "C24_warmup_ends_early_refuted",
    "C24_warmup_in_range",
    "C24_warmup_never_decays",
    "C24_warmup_shape"
   ],
   "note": "Clipping by norm over the reals (standard-library axioms listed in DESIGN.md). Partial last batches make the schedule reach 0 before training ends (C24_warmup_ends_early_refuted)."
  },
  {
   "property": "C25",
   "status": "proved",
   "theorems": [
    "C25_quantile_covers_scores",
    "C25_level_rejected",
    "C25_quantile_regressor_covers",
    "C25_onedim_regressor_covers"
   ],
   "note": "Rational arithmetic; jnp.quantile modelled as clamped linear interpolation of order statistics."
  },
  {
   "property": "C26",
   "status": "proved",
   "theorems": [
    "C26_not_too_wide",
    "C26_onedim_holdout_coverage",
    "C26_quantile_holdout_coverage",
    "C26_small_error_refuted"
   ],
   "note": "Counting form of the exchangeability argument at the level of the returned intervals; the case error<1/(n+1) is refuted."
  },
  {
   "property": "C27",
   "status": "proved",
   "theorems": [
    "C27_cv_plus_nested",
    "C27_jackknife_minmax_nested",
    "C27_jackknife_minmax_ordered",
    "C27_jackknife_plus_nested",
    "C27_jackknife_plus_ordered",
    "C27_onedim_nested",
    "C27_quantile_nested"
   ],
   "note": ""
  },
  {
   "property": "C28",
   "status": "proved",
   "theorems": [
    "C28_minmax_contains_plus",
    "C28_cv_plus_single_folds",
    "C28_cv_plus_pooled",
    "C28_folds_accepted"
   ],
   "note": ""
  },
  {
   "property": "C29",
   "status": "proved",
   "theorems": [
    "C29_centred",
    "C29_out_of_bag_only",
    "C29_update_step",
    "C29_sliding_window",
    "C29_batch_update_refuted",
    "C29_values",
    "C29_accepts"
   ],
   "note": "aggregation function arbitrary; batch updates refuted."
  },
  {
   "property": "C30",
   "status": "proved",
   "theorems": [
    "C30_range",
    "C30_direction",
    "C30_weighted_step",
    "C30_rejects",
    "C30_interval",
    "C30_weighted"
   ],
   "note": "AdaptiveConformalClassifier uses the same code."
  },
  {
   "property": "C31",
   "status": "proved",
   "theorems": [
    "C31_clipping_any_length",
    "C31_clipping_refuted",
    "C31_longrun",
    "C31_lower",
    "C31_upper"
   ],
   "note": "Bounds without clipping proved; with clipping refuted for runs of every length."
  },
  {
   "property": "C32",
   "status": "proved",
   "theorems": [
    "C32_empty",
    "C32_membership",
    "C32_nested"
   ],
   "note": "Grouping-by-size code proved equal to per-row label lists; membership, order, nesting and emptiness for all inputs."
  },
  {
   "property": "C33",
   "status": "proved",
   "theorems": [
    "C33_closed_upwards",
    "C33_coverage",
    "C33_least_likely_included",
    "C33_most_likely_excluded_refuted"
   ],
   "note": "Coverage as a counting statement over hold-outs of a finite data set; upward closure; inclusion of the least likely label and a refutation for the most likely label."
  },
  {
   "property": "C34",
   "status": "proved",
   "theorems": [
    "C34_adaptive_first",
    "C34_adaptive_last",
    "C34_adaptive_monotone",
    "C34_adaptive_range",
    "C34_adaptive_sum",
    "C34_simple_range"
   ],
   "note": "Score equals total probability of labels ranked at least as high (ties to the larger label, as stable argsort reversed gives)."
  },
  {
   "property": "C35",
   "status": "proved",
   "theorems": [
    "C35_positive_precision",
    "C35_negative_precision",
    "C35_positive_unchanged",
    "C35_negative_unchanged",
    "C35_single_tau_refuted",
    "C35_range",
    "C35_errors",
    "C35_precision_reported",
    "C35_coverage_reported",
    "C35_negative_coverage_refuted"
   ],
   "note": "Argmax over the temperature grid; unchanged-when-unsatisfiable holds for grids of at least two temperatures on the negative side and is refuted for one; true_negative_coverage inconsistency refuted."
  },
  {
   "property": "C36",
   "status": "proved",
   "theorems": [
    "C36_direction",
    "C36_lengths",
    "C36_membership",
    "C36_membership_top_label",
    "C36_patch",
    "C36_patch_top_label",
    "C36_top_label_sum_refuted",
    "C36_unit",
    "C36_unit_top_label"
   ],
   "note": "Plain calibrators, BatchMVP and top-label. Refuted: top-label rows keep summing to one."
  },
  {
   "property": "C37",
   "status": "proved",
   "theorems": [
    "C37_concat",
    "C37_converged_refuted",
    "C37_empty_validation",
    "C37_nothing",
    "C37_pointwise",
    "C37_replay",
    "C37_two_steps"
   ],
   "note": "Replay of recorded patches plus at most one unrecorded patch. Refuted: a converged run can have stored no patch although the loss without patches is above atol. With an empty validation split no patch is ever stored."
  },
  {
   "property": "C38",
   "status": "proved",
   "theorems": [
    "C38_rounds",
    "C38_validation_losses",
    "C38_calibration_losses",
    "C38_converged",
    "C38_stop_reasons",
    "C38_losses_of_patches",
    "C38_documented_losses",
    "C38_documented_loss_top"
   ],
   "note": "Bound on rounds, non-increasing losses, meaning of convergence and the only reasons to stop."
  },
  {
   "property": "C39",
   "status": "proved",
   "theorems": [
    "C39_bias",
    "C39_multiplicative_refuted",
    "C39_squared_error",
    "C39_squared_error_top_label"
   ],
   "note": "Bias shrinks by 1-eta without clipping; squared error decreases by eta(2-eta)*N*error even with clipping. Refuted for multiplicative patches."
  },
  {
   "property": "C40",
   "status": "proved",
   "theorems": [
    "C40_blind_refuted",
    "C40_calibration_error",
    "C40_disjoint",
    "C40_gap",
    "C40_one_shot",
    "C40_one_shot_batch_refuted",
    "C40_one_shot_patch",
    "C40_one_shot_unit"
   ],
   "note": "Gaps and disjointness for every n >= 2; meaning of the calibration error; one-shot rule; refuted: calibration_error sees all points, one-shot is pointwise."
  },
  {
   "property": "C41",
   "status": "proved",
   "theorems": [
    "C41_bias_clipped",
    "C41_bias_mean",
    "C41_brier_never_worse",
    "C41_brier_optimal",
    "C41_crossentropy_nonneg",
    "C41_crossentropy_optimal",
    "C41_f1_loss",
    "C41_f1_optimal",
    "C41_f1_range",
    "C41_f1_zero_refuted",
    "C41_identity",
    "C41_no_temperature",
    "C41_order",
    "C41_positive_temperature",
    "C41_predict",
    "C41_values"
   ],
   "note": "Rational arithmetic except cross-entropy (real logarithm). scipy brute is the first best grid point followed by a local search assumed not to worsen the loss."
  },
  {
   "property": "C42",
   "status": "proved",
   "theorems": [
    "C42_compose",
    "C42_distribution",
    "C42_flatten",
    "C42_identity",
    "C42_loss",
    "C42_loss_nonneg",
    "C42_negative_reverses",
    "C42_optimal",
    "C42_order",
    "C42_prediction"
   ],
   "note": "Real arithmetic; entries positive. Same treatment of scipy brute."
  },
  {
   "property": "C43",
   "status": "proved",
   "theorems": [
    "C43_accuracy",
    "C43_bins_partition",
    "C43_bins_spec",
    "C43_brier_binary",
    "C43_brier_proper",
    "C43_brier_range",
    "C43_brier_zero",
    "C43_counts_total",
    "C43_ece_lower_bound",
    "C43_ece_order",
    "C43_ece_range",
    "C43_ece_zero",
    "C43_mce_bounds",
    "C43_mce_refuted"
   ],
   "note": "Exact rational arithmetic."
  },
  {
   "property": "C44",
   "status": "proved",
   "theorems": [
    "C44_mae",
    "C44_mae_mse",
    "C44_mae_zero",
    "C44_mixed_shapes",
    "C44_mixed_shapes_refuted",
    "C44_mse",
    "C44_mse_zero",
    "C44_one_dimensional",
    "C44_picp_are_in",
    "C44_picp_range",
    "C44_picp_shapes",
    "C44_picp_widen",
    "C44_rmae_square",
    "C44_rmse_square"
   ],
   "note": "Rational arithmetic; square roots real."
  },
  {
   "property": "C45",
   "status": "proved",
   "theorems": [
    "C45_class_bound",
    "C45_class_total",
    "C45_different_samples_refuted",
    "C45_epistemic_variance",
    "C45_epistemic_zero",
    "C45_mean",
    "C45_mean_distribution",
    "C45_mean_range",
    "C45_variance"
   ],
   "note": "One input and output coordinate; the posterior samples are functions of the key index. With different keys for the two parts (as variance() draws them) the identity of the classification case is lost: C45_different_samples_refuted."
  },
  {
   "property": "C46",
   "status": "proved",
   "theorems": [
    "C46_agreement",
    "C46_bounds",
    "C46_entropy",
    "C46_log_probability",
    "C46_regression_entropy",
    "C46_regression_epistemic_refuted"
   ],
   "note": "Real-number model (stdlib R axioms). Regression epistemic entropy can be negative: C46_regression_epistemic_refuted."
  },
  {
   "property": "C47",
   "status": "proved",
   "theorems": [
    "C47_credible_sets",
    "C47_nested",
    "C47_one_set_per_input",
    "C47_unreachable",
    "C47_zero_error_refuted"
   ],
   "note": "All rows have n_classes entries. Coverage at error 0 is refuted."
  },
  {
   "property": "C48",
   "status": "proved",
   "theorems": [
    "C48_conformal_sets",
    "C48_effective_sample_size",
    "C48_extremes",
    "C48_nested",
    "C48_one_set_per_input"
   ],
   "note": "Starts from the exponentiated log-probabilities; np.argsort of booleans as a stable sort."
  },
  {
   "property": "C49",
   "status": "proved",
   "theorems": [
    "C49_accepted",
    "C49_complete",
    "C49_early_stop_refuted",
    "C49_stored",
    "C49_zero_thinning"
   ],
   "note": "Run of the sampling callback over any list of end-of-step states. Early stopping, which SGHMC passes to the trainer, can leave fewer samples than requested (refutation)."
  },
  {
   "property": "C50",
   "status": "proved",
   "theorems": [
    "C50_complete",
    "C50_first_sample_refuted",
    "C50_rejected",
    "C50_stored"
   ],
   "note": "Stored samples are the first n due steps. Refutation: the state stored at the first step of a sampling phase comes from a noise-free exploration update."
  },
  {
   "property": "C51",
   "status": "proved",
   "theorems": [
    "C51_accepted",
    "C51_average_refuted",
    "C51_bounds",
    "C51_columns",
    "C51_first_epoch",
    "C51_moments",
    "C51_rank_one",
    "C51_sample"
   ],
   "note": "One coordinate of the parameter vector over Q (samples over R)."
  },
  {
   "property": "C52",
   "status": "proved",
   "theorems": [
    "C52_rmsprop_range",
    "C52_rmsprop_inverse",
    "C52_rmsprop_constant",
    "C52_constant",
    "C52_cosine",
    "C52_cosine_restarts",
    "C52_polynomial",
    "C52_burnin",
    "C52_cyclical",
    "C52_cyclical_offset"
   ],
   "note": "One coordinate; uses the real-number axioms of the standard library. Also shows that the cyclical schedule is shifted by one step against the phase test and that the cosine schedule grows again after its horizon."
  },
  {
   "property": "C53",
   "status": "proved",
   "theorems": [
    "C53_check_errors",
    "C53_checks",
    "C53_consistent",
    "C53_evaluation",
    "C53_joint",
    "C53_joint_error",
    "C53_negative_default_refuted",
    "C53_no_manager_refuted",
    "C53_unbiased",
    "C53_unequal_batches_refuted",
    "C53_updated_mutable",
    "C53_value"
   ],
   "note": "Equal-size batches are unbiased; a smaller last batch is not (C53_unequal_batches_refuted). Calls without an output calibration manager fail in two ways (C53_no_manager_refuted); the negative log joint without return_aux always fails (C53_negative_default_refuted)."
  },
  {
   "property": "C54",
   "status": "proved",
   "theorems": [
    "C54_constant_refuted",
    "C54_defined",
    "C54_kernel",
    "C54_lengths",
    "C54_range",
    "C54_weighted_mean"
   ],
   "note": "Constant targets give NaN (C54_constant_refuted); C54_defined shows this is the only such case."
  },
  {
   "property": "C55",
   "status": "proved",
   "theorems": [
    "C55_sample",
    "C55_sample_empty_diverges"
   ],
   "note": "Non-termination on an empty loader stated as: no amount of fuel gives a result."
  },
  {
   "property": "C56",
   "status": "proved",
   "theorems": [
    "C56_multiple_choice"
   ],
   "note": ""
  },
  {
   "property": "C57",
   "status": "proved",
   "theorems": [
    "C57_balance",
    "C57_batches"
   ],
   "note": ""
  },
  {
   "property": "C58",
   "status": "proved",
   "theorems": [
    "C58_find_path"
   ],
   "note": "Dictionaries with unique keys (as in Python)."
  },
  {
   "property": "C59",
   "status": "proved",
   "theorems": [
    "C59_documented_guarantee_refuted",
    "C59_jackknife_plus_coverage"
   ],
   "note": "Deterministic bound proved by a tournament argument; documented constant refuted."
  },
  {
   "property": "C60",
   "status": "proved",
   "theorems": [
    "C60_documented_guarantee_refuted",
    "C60_jackknife_minmax_coverage"
   ],
   "note": "Documented constant refuted."
  },
  {
   "property": "C61",
   "status": "proved",
   "theorems": [
    "C61_accumulation_refuted",
    "C61_fresh_without_accumulation",
    "C61_keys"
   ],
   "note": "Key derivation fold_in(key, step) modelled by the step it is folded with; accumulation case refuted."
  },
  {
   "property": "C62",
   "status": "proved",
   "theorems": [
    "C62_keys_distinct",
    "C62_variance_keys_distinct",
    "C62_variance_keys_refuted"
   ],
   "note": "Keys are free terms; the cross-call claim is refuted by C62_variance_keys_refuted."
  },
  {
   "property": "C63",
   "status": "proved",
   "theorems": [
    "C63_member_init"
   ],
   "note": "Random tree assumed to have the structure of the MAP parameters (same model initialiser)."
  },
  {
   "property": "C64",
   "status": "proved",
   "theorems": [
    "C64_accumulation_refuted",
    "C64_periodic_checkpoints"
   ],
   "note": "Accumulation case refuted."
  },
  {
   "property": "C65",
   "status": "proved",
   "theorems": [
    "C65_accumulation_refuted",
    "C65_loss_scaling"
   ],
   "note": "Accumulation case refuted."
  },
  {
   "property": "C66",
   "status": "proved",
   "theorems": [
    "C66_mask",
    "C66_mask_refuted"
   ],
   "note": "Exact characterisation of the mask; the intended claim is refuted by C66_mask_refuted."
  },
  {
   "property": "C67",
   "status": "proved",
   "theorems": [
    "C67_adaptive_update",
    "C67_cvplus_length",
    "C67_cvplus_sets",
    "C67_one_set_per_input_refuted",
    "C67_split_sets"
   ],
   "note": "Membership of split and CV+ sets (scores pooled over folds), adaptive update, one set per fold and test point."
  },
  {
   "property": "C68",
   "status": "proved",
   "theorems": [
    "C68_error_meaning",
    "C68_progress",
    "C68_progress_top_label",
    "C68_progress_unit",
    "C68_sets_examined"
   ],
   "note": "Telescoping argument over the recorded patches."
  },
  {
   "property": "C69",
   "status": "proved",
   "theorems": [
    "C69_covered",
    "C69_error",
    "C69_multiplicative",
    "C69_patch",
    "C69_pinball",
    "C69_sets",
    "C69_shifts"
   ],
   "note": "Optimality with tie rule."
  },
  {
   "property": "C70",
   "status": "proved",
   "theorems": [
    "C70_binary_targets",
    "C70_bucket_types",
    "C70_bucket_types_unknown",
    "C70_call",
    "C70_min_prob",
    "C70_multiplicative_from_zero",
    "C70_no_zero_division",
    "C70_one_hot",
    "C70_single_label_refuted",
    "C70_split"
   ],
   "note": "Argument checks as an equivalence; findings as refutations."
  },
  {
   "property": "C71",
   "status": "proved",
   "theorems": [
    "C71_logits",
    "C71_logits_initial",
    "C71_logits_prediction",
    "C71_regression",
    "C71_softmax"
   ],
   "note": "Real arithmetic, one output row."
  },
  {
   "property": "C72",
   "status": "proved",
   "theorems": [
    "C72_entropy",
    "C72_log_probability",
    "C72_masked",
    "C72_masked_total",
    "C72_out_of_range",
    "C72_predict",
    "C72_regression",
    "C72_regression_mode",
    "C72_regression_odd",
    "C72_regression_sample",
    "C72_std",
    "C72_std_refuted"
   ],
   "note": "Real-number model (stdlib R axioms); std with given variances is refuted."
  },
  {
   "property": "C73",
   "status": "proved",
   "theorems": [
    "C73_intervals",
    "C73_nested",
    "C73_unknown_type"
   ],
   "note": "Linear-interpolation quantiles of exact samples for one scalar target."
  },
  {
   "property": "C74",
   "status": "proved",
   "theorems": [
    "C74_counts",
    "C74_sgld",
    "C74_sgld_rmsprop",
    "C74_sgld_rmsprop_run",
    "C74_sghmc_run",
    "C74_sghmc",
    "C74_momentum_forgotten",
    "C74_exploration",
    "C74_sampling",
    "C74_keys"
   ],
   "note": "One coordinate; key splitting and normal draws are parameters."
  },
  {
   "property": "C75",
   "status": "proved",
   "theorems": [
    "C75_constant_chain",
    "C75_high_threshold",
    "C75_range",
    "C75_unfiltered_refuted"
   ],
   "note": "One coordinate over Q; FFT autocorrelation taken as the linear autocorrelation. C75_unfiltered_refuted shows filter_threshold=None always divides by zero."
  },
  {
   "property": "C76",
   "status": "proved",
   "theorems": [
    "C76_arguments",
    "C76_discrepancy",
    "C76_langevin",
    "C76_langevin_unique",
    "C76_nonnegative",
    "C76_single",
    "C76_symmetric",
    "C76_translation"
   ],
   "note": "Default kernel parameters (c = 1, beta = -1/2), which are the only ones the jitted function accepts; exact real arithmetic. Positive semi-definiteness is proved by writing the inverse multiquadric kernel as an integral of Gaussian kernels."
  },
  {
   "property": "C77",
   "status": "proved",
   "theorems": [
    "C77_auxiliary",
    "C77_regression_frozen_refuted",
    "C77_regression_mutable_refuted",
    "C77_regression_outputs",
    "C77_split"
   ],
   "note": "Regression manager with mutable variables: see the refuted theorems."
  },
  {
   "property": "C78",
   "status": "proved",
   "theorems": [
    "C78_constant_diagonal",
    "C78_constant_sample",
    "C78_diagonal",
    "C78_diagonal_sample_scale",
    "C78_isotropic",
    "C78_mode",
    "C78_sample_scale",
    "C78_shrinkage"
   ],
   "note": "Real numbers; uses the axioms of the standard library reals."
  },
  {
   "property": "C79",
   "status": "proved",
   "theorems": [
    "C79_errors",
    "C79_laplace",
    "C79_start"
   ],
   "note": ""
  },
  {
   "property": "C80",
   "status": "proved",
   "theorems": [
    "C80_batching",
    "C80_classification_hessian",
    "C80_classification_nonnegative",
    "C80_gauss_newton",
    "C80_log_prob",
    "C80_nonnegative",
    "C80_regression_hessian",
    "C80_regression_refuted",
    "C80_sample",
    "C80_std",
    "C80_std_hessian",
    "C80_std_prior"
   ],
   "note": "The Hessian, Jacobian and eigendecomposition are inputs of the model; C80_*_hessian show the Hessians used are second derivatives of the modelled log-likelihoods. Regression: C80_regression_refuted."
  },
  {
   "property": "C81",
   "status": "proved",
   "theorems": [
    "C81_components",
    "C81_missing_component",
    "C81_tuning_first_best",
    "C81_tuning_local_refuted",
    "C81_tuning_modes",
    "C81_tuning_not_worse",
    "C81_tuning_total"
   ],
   "note": "The which_params branch uses nested_pair and nested_unpair, see C13."
  },
  {
   "property": "C82",
   "status": "proved",
   "theorems": [
    "C82_density",
    "C82_sample",
    "C82_sample_density",
    "C82_inverse",
    "C82_inverse_back",
    "C82_change_of_variables",
    "C82_elbo"
   ],
   "note": "Vectors; real numbers."
  },
  {
   "property": "C83",
   "status": "proved",
   "theorems": [
    "C83_order",
    "C83_preserved_refuted",
    "C83_sorted_preserved"
   ],
   "note": "The property as titled fails: C83_preserved_refuted. C83_sorted_preserved gives the condition under which it holds."
  },
  {
   "property": "C84",
   "status": "proved",
   "theorems": [
    "C84_bound",
    "C84_exact",
    "C84_layer",
    "C84_missing",
    "C84_momentum",
    "C84_reset",
    "C84_reset_array"
   ],
   "note": "Precision updates, momentum check and reset callback over nested mutable trees."
  },
  {
   "property": "C85",
   "status": "proved",
   "theorems": [
    "C85_kernel",
    "C85_diagonal",
    "C85_bounds",
    "C85_factor_exists",
    "C85_more_data",
    "C85_away",
    "C85_seen",
    "C85_features",
    "C85_stationary"
   ],
   "note": "The Cholesky routine is a parameter; its specification is proved satisfiable for every reachable precision matrix."
  },
  {
   "property": "C86",
   "status": "proved",
   "theorems": [
    "C86_check_state",
    "C86_collections",
    "C86_confidence",
    "C86_empty",
    "C86_mean_field"
   ],
   "note": "Empty mutable raises (finding)."
  },
  {
   "property": "C87",
   "status": "proved",
   "theorems": [
    "C87_bound",
    "C87_bound_refuted",
    "C87_estimate_below",
    "C87_estimate_increases",
    "C87_identity",
    "C87_never_grows",
    "C87_tracked"
   ],
   "note": "The unconditional bound is refuted (C87_bound_refuted): the estimate is only a lower bound."
  },
  {
   "property": "C88",
   "status": "proved",
   "theorems": [
    "C88_at_mean",
    "C88_covariance",
    "C88_not_fitted",
    "C88_score",
    "C88_unobserved",
    "C88_unobserved_refuted"
   ],
   "note": "Behaviour with an unobserved class is a finding (C88_unobserved_refuted). Pseudo-inverse is a parameter with the Moore-Penrose equations."
  },
  {
   "property": "C89",
   "status": "proved",
   "theorems": [
    "C89_moments",
    "C89_singleton",
    "C89_jitter",
    "C89_jitter_total",
    "C89_score",
    "C89_jitters",
    "C89_density",
    "C89_monotone",
    "C89_unobserved_refuted",
    "C89_not_fitted"
   ],
   "note": "Singleton and unobserved classes are findings (C89_singleton, C89_unobserved_refuted)."
  },
  {
   "property": "C90",
   "status": "proved",
   "theorems": [
    "C90_argmax_refuted",
    "C90_full",
    "C90_shrinks",
    "C90_top_k",
    "C90_top_zero"
   ],
   "note": "Preservation of the predicted class is refuted (C90_argmax_refuted)."
  },
  {
   "property": "C91",
   "status": "proved",
   "theorems": [
    "C91_scales",
    "C91_bounds",
    "C91_output",
    "C91_sizes",
    "C91_memory",
    "C91_memory_refuted",
    "C91_top_k_values",
    "C91_top_k_refuted"
   ],
   "note": "The matrix inverse is a parameter that inverts every invertible matrix. Limited memory and top_k are refuted (C91_memory_refuted, C91_top_k_refuted)."
  },
  {
   "property": "C92",
   "status": "proved",
   "theorems": [
    "C92_best_variance",
    "C92_cross_entropy",
    "C92_cross_entropy_nonneg",
    "C92_focal",
    "C92_focal_antitone",
    "C92_focal_below_cross_entropy",
    "C92_focal_decreasing",
    "C92_focal_default_gap",
    "C92_focal_zero",
    "C92_out_of_range",
    "C92_scaled_mse",
    "C92_scaled_mse_odd",
    "C92_shift"
   ],
   "note": "Over the real numbers."
  },
  {
   "property": "C93",
   "status": "proved",
   "theorems": [
    "C93_checkpoints",
    "C93_device_validation",
    "C93_device_validation_refuted",
    "C93_early_stopping",
    "C93_empty_fails",
    "C93_epochs",
    "C93_full_batch",
    "C93_keys",
    "C93_no_directory",
    "C93_succeeds",
    "C93_truncated"
   ],
   "note": "Steps and validation are parameters. Findings: save_every_n_steps counts epochs (C93_checkpoints), device averages of outputs (C93_device_validation_refuted)."
  },
  {
   "property": "C94",
   "status": "proved",
   "theorems": [
    "C94_loss",
    "C94_loss_identity",
    "C94_loss_rejects",
    "C94_predictions",
    "C94_second_step_refuted"
   ],
   "note": "Training calibrators with mutable variables is refuted (C94_second_step_refuted)."
  },
  {
   "property": "C95",
   "status": "proved",
   "theorems": [
    "C95_loss",
    "C95_mutable_refuted",
    "C95_outputs_refuted",
    "C95_class_dims",
    "C95_distinct_labels",
    "C95_output_dims",
    "C95_reg_dims"
   ],
   "note": "Models with mutable variables and precomputed outputs are refuted (C95_mutable_refuted, C95_outputs_refuted)."
  },
  {
   "property": "C96",
   "status": "proved",
   "theorems": [
    "C96_calib_model",
    "C96_output_calibration",
    "C96_prob_model",
    "C96_train_then_calibrate"
   ],
   "note": "Training, restoring and fitting are parameters."
  },
  {
   "property": "C97",
   "status": "proved",
   "theorems": [
    "C97_check",
    "C97_late_difference_refuted"
   ],
   "note": "Detection of later differences is refuted (C97_late_difference_refuted)."
  },
  {
   "property": "C98",
   "status": "proved",
   "theorems": [
    "C98_samples",
    "C98_distributed",
    "C98_distributed_size",
    "C98_distributed_refuted",
    "C98_split",
    "C98_objective",
    "C98_outputs",
    "C98_objective_bounds",
    "C98_objective_single",
    "C98_objective_pointwise_refuted",
    "C98_devices",
    "C98_devices_refuted"
   ],
   "note": "Pointwise averaging, device averaging and distributed sampling are refuted (C98_objective_pointwise_refuted, C98_devices_refuted, C98_distributed_refuted)."
  },
  {
   "property": "C99",
   "status": "proved",
   "theorems": [
    "C99_all_tokens",
    "C99_equal_lengths",
    "C99_geometric_mean",
    "C99_nothing_to_score",
    "C99_padding_refuted",
    "C99_unknown_token"
   ],
   "note": "Over real numbers; the dependence on padding is proved as a refutation."
  },
  {
   "property": "C100",
   "status": "proved",
   "theorems": [
    "C100_best_model",
    "C100_group_nonempty",
    "C100_group_sizes",
    "C100_groups_pointwise",
    "C100_hard",
    "C100_no_model",
    "C100_normalize_affine",
    "C100_normalize_undefined",
    "C100_normalized",
    "C100_soft_empty_refuted",
    "C100_soft_sizes",
    "C100_soft_within"
   ],
   "note": "Clustering models are parameters; BIC values that are infinite or NaN are None."
  },
  {
   "property": "C101",
   "status": "proved",
   "theorems": [
    "C101_failed_calibration",
    "C101_failed_fit",
    "C101_fit_then_predict",
    "C101_labels",
    "C101_loaded_predicts",
    "C101_pointwise",
    "C101_predict",
    "C101_save_load",
    "C101_uncalibrated",
    "C101_unfitted",
    "C101_unfitted_predict",
    "C101_unit"
   ],
   "note": "Balancing is C57; calibration itself is C36-C39 and a parameter here."
  },
  {
   "property": "C102",
   "status": "proved",
   "theorems": [
    "C102_content",
    "C102_ends",
    "C102_capitals",
    "C102_first",
    "C102_after_sentence",
    "C102_not_idempotent_refuted",
    "C102_space_before_punctuation_refuted",
    "C102_capitalization_refuted"
   ],
   "note": "ASCII only; three documented expectations are refuted."
  },
  {
   "property": "C103",
   "status": "proved",
   "theorems": [
    "C103_evaluation",
    "C103_shape",
    "C103_rows",
    "C103_no_dropout",
    "C103_dropout",
    "C103_dropout_refuted",
    "C103_affine",
    "C103_width_mismatch",
    "C103_lengths",
    "C103_no_layers"
   ],
   "note": "Flattened rational inputs; the dropout mask is arbitrary. C103_dropout_refuted shows that dropout before the last activation differs from dropout of the activations for an activation that moves zero."
  },
  {
   "property": "C104",
   "status": "proved",
   "theorems": [
    "C104_evaluation",
    "C104_first_activation_unused",
    "C104_two_layers_affine",
    "C104_width_mismatch",
    "C104_zero_layers"
   ],
   "note": "C104_first_activation_unused and C104_two_layers_affine record that the first activation is ignored."
  },
  {
   "property": "C105",
   "status": "proved",
   "theorems": [
    "C105_resnet_basic",
    "C105_resnet_bottleneck",
    "C105_resnet_basic_outputs",
    "C105_resnet_bottleneck_outputs",
    "C105_wide_groups",
    "C105_wide_features",
    "C105_wide_minimum",
    "C105_wide_one_window",
    "C105_wide_shallow",
    "C105_lenet",
    "C105_lenet_minimum",
    "C105_cnn",
    "C105_cnn_minimum",
    "C105_cnn_parameters"
   ],
   "note": "Shapes only; convolution values, batch normalisation and spectral normalisation of convolutions are not modelled."
  },
  {
   "property": "C106",
   "status": "proved",
   "theorems": [
    "C106_constant",
    "C106_constant_inputs",
    "C106_hyper",
    "C106_linear",
    "C106_scalar",
    "C106_scalar_hyper"
   ],
   "note": "Values of the models for any inputs."
  },
  {
   "property": "C107",
   "status": "proved",
   "theorems": [
    "C107_contract",
    "C107_equal",
    "C107_jit_refuted",
    "C107_jit_reuses",
    "C107_jit_transparent",
    "C107_method_asymmetric",
    "C107_order_matters",
    "C107_plain_raises",
    "C107_private_ignored"
   ],
   "note": "Python equality of attribute values and hash functions are parameters; order of attributes matters for equality."
  },
  {
   "property": "C108",
   "status": "proved",
   "theorems": [
    "C108_choice",
    "C108_dynamic_scale",
    "C108_no_jit_only_on_cpu",
    "C108_several_devices_need_gpu"
   ],
   "note": ""
  },
  {
   "property": "C109",
   "status": "proved",
   "theorems": [
    "C109_channels",
    "C109_job_name",
    "C109_hparams",
    "C109_root_exists"
   ],
   "note": ""
  },
  {
   "property": "C110",
   "status": "proved",
   "theorems": [
    "C110_even",
    "C110_batch",
    "C110_batch_raises",
    "C110_loader",
    "C110_loader_raises",
    "C110_array_loader"
   ],
   "note": "Prefetching only moves the exception earlier."
  },
  {
   "property": "C111",
   "status": "proved",
   "theorems": [
    "C111_data_parallel",
    "C111_in_sync",
    "C111_loss",
    "C111_scaled_refuted"
   ],
   "note": "Real arithmetic; gradients assumed finite under loss scaling; equality needs gradients independent of mutable collections and random keys (no dropout, no batch statistics). The loss-scaling case is refuted."
  },
  {
   "property": "C112",
   "status": "proved",
   "theorems": [
    "C112_checkpoint",
    "C112_mean_metrics",
    "C112_returned_refuted",
    "C112_rmse_below",
    "C112_rmse_refuted",
    "C112_training_metrics",
    "C112_validated"
   ],
   "note": "Returned-state equality without final validation and RMSE equality are refuted."
  },
  {
   "property": "C113",
   "status": "proved",
   "theorems": [
    "C113_callbacks",
    "C113_default_refuted",
    "C113_integrator_leaks",
    "C113_own_optimizer",
    "C113_sgmcmc"
   ],
   "note": "C113_default_refuted: default configurations share one optimizer object."
  },
  {
   "property": "C114",
   "status": "proved",
   "theorems": [
    "C114_errors",
    "C114_failed_fit",
    "C114_load",
    "C114_memory",
    "C114_nothing_stored",
    "C114_other_directories",
    "C114_result",
    "C114_resume",
    "C114_same_directory_raises",
    "C114_sample",
    "C114_save_load",
    "C114_succeeds"
   ],
   "note": "Training runs are parameters: final state and the checkpoints written."
  },
  {
   "property": "C115",
   "status": "proved",
   "theorems": [
    "C115_result",
    "C115_sample",
    "C115_load",
    "C115_resume",
    "C115_changed_storage_refuted",
    "C115_save_state_refuted",
    "C115_errors"
   ],
   "note": "Changed storage and save_state in memory are refuted."
  },
  {
   "property": "C116",
   "status": "proved",
   "theorems": [
    "C116_sample",
    "C116_missing",
    "C116_stale_refuted",
    "C116_load",
    "C116_resume",
    "C116_rejected_loses_samples_refuted",
    "C116_save_state_refuted",
    "C116_errors",
    "C116_checkpoint"
   ],
   "note": "Without freeze_fun (see C19 for that case). Stale samples, loss of samples and save_state are refuted."
  },
  {
   "property": "C117",
   "status": "proved",
   "theorems": [
    "C117_any_vector",
    "C117_arithmetic",
    "C117_roundtrip"
   ],
   "note": "jax ravel_pytree modelled on trees of lists; dictionaries with unique keys."
  },
  {
   "property": "C118",
   "status": "proved",
   "theorems": [
    "C118_checkpoint_order_refuted",
    "C118_frozen_fitted",
    "C118_frozen_loaded",
    "C118_plain"
   ],
   "note": "The entrywise transformation is a parameter. The order after a checkpoint is refuted with eleven arrays."
  },
  {
   "property": "C119",
   "status": "proved",
   "theorems": [
    "C119_devices_refuted",
    "C119_devices_shared_refuted",
    "C119_frozen_sorted",
    "C119_one_device",
    "C119_order_refuted"
   ],
   "note": "The combination of statistics and normal numbers is a parameter; order and several devices are refuted as stated."
  },
  {
   "property": "C120",
   "status": "proved",
   "theorems": [
    "C120_frozen"
   ],
   "note": "The combination of mean, curvature and noise is a parameter; states paired by nested_pair."
  },
  {
   "property": "C121",
   "status": "proved",
   "theorems": [
    "C121_dataset_metric",
    "C121_dataset_metric_refuted",
    "C121_named_loss_refuted",
    "C121_same_name_refuted",
    "C121_shared_name_raises",
    "C121_status",
    "C121_training_batch",
    "C121_validation_batch"
   ],
   "note": "Status entries characterised for all epochs; equal-batch averages proved; unequal batches and name clashes refuted."
  },
  {
   "property": "C122",
   "status": "proved",
   "theorems": [
    "C122_devices_refuted",
    "C122_one_device_or_sample",
    "C122_single"
   ],
   "note": "Correct on one device or with one sample; refuted for all larger sizes."
  },
  {
   "property": "C123",
   "status": "proved",
   "theorems": [
    "C123_accuracy_refuted",
    "C123_bin_accuracy",
    "C123_calibration_error_refuted",
    "C123_regression",
    "C123_training"
   ],
   "note": "Training and regression aligned; classification accuracy raises and calibration error is wrong."
  },
  {
   "property": "C124",
   "status": "proved",
   "theorems": [
    "C124_drop_last_labels_refuted",
    "C124_no_reshuffle",
    "C124_num_labels",
    "C124_padded",
    "C124_ragged_raises",
    "C124_same_lengths",
    "C124_unlabelled_targets_raise"
   ],
   "note": "Only the token ids are modelled; other tokenizer keys follow the same path. With drop_last the label count is refuted."
  },
  {
   "property": "C125",
   "status": "proved",
   "theorems": [
    "C125_choices",
    "C125_columns",
    "C125_max_length_refuted",
    "C125_no_number_raises",
    "C125_no_target_raises",
    "C125_uneven_refuted"
   ],
   "note": "Uneven numbers of choices and max_length are refuted."
  },
  {
   "property": "C126",
   "status": "proved",
   "theorems": [
    "C126_mask_token_needed",
    "C126_rows",
    "C126_tokens_lost_refuted"
   ],
   "note": "The random draws are arbitrary. The dataset-wide bound on lost tokens is refuted (Dataset.map slices)."
  },
  {
   "property": "C127",
   "status": "proved",
   "theorems": [
    "C127_plain_converges",
    "C127_plain_evaluation",
    "C127_plain_repeated",
    "C127_transformer_bound_refuted",
    "C127_transformer_frozen",
    "C127_transformer_unnormalized"
   ],
   "note": "Dense layers over the reals; floating point rounding is not modelled. The enforcement of the bound by the SNGP transformers is refuted."
  },
  {
   "property": "C128",
   "status": "proved",
   "theorems": [
    "C128_class_chosen",
    "C128_architectures_none",
    "C128_shipped",
    "C128_collections",
    "C128_round_trip",
    "C128_missing_filled",
    "C128_unknown_missing_raises",
    "C128_fresh_weights",
    "C128_no_statistics_raises",
    "C128_call_given",
    "C128_own_overwritten",
    "C128_sngp_init",
    "C128_outputs",
    "C128_logits_kept"
   ],
   "note": "The loading done by the transformers library itself is a parameter; the distilbert and roberta models have the same code for the modelled parts."
  },
  {
   "property": "C129",
   "status": "proved",
   "theorems": [
    "C129_classifier",
    "C129_unknown_raises",
    "C129_keywords_required",
    "C129_callbacks",
    "C129_regressor_sngp_refuted",
    "C129_all_components",
    "C129_streams",
    "C129_owners",
    "C129_reproducible",
    "C129_different_seeds",
    "C129_prior_owner",
    "C129_shared_prior_refuted"
   ],
   "note": "Generators are ideal (distinct derivations give distinct keys). Refuted parts: C129_regressor_sngp_refuted, C129_shared_prior_refuted."
  },
  {
   "property": "C130",
   "status": "proved",
   "theorems": [
    "C130_calib_late_refuted",
    "C130_classifier_accepts",
    "C130_dict_inputs_raise",
    "C130_keys",
    "C130_missing_class_refuted",
    "C130_out_of_range_refuted",
    "C130_regressor_accepts",
    "C130_regressor_first_batch",
    "C130_regressor_mutable_refuted",
    "C130_regressor_raises",
    "C130_train_accepted",
    "C130_train_rejected",
    "C130_val_late_refuted",
    "C130_val_unchecked"
   ],
   "note": "Networks by their variables and output shapes. Refuted parts: C130_missing_class_refuted, C130_out_of_range_refuted, C130_regressor_mutable_refuted, C130_calib_late_refuted, C130_val_late_refuted."
  },
  {
   "property": "C131",
   "status": "proved",
   "theorems": [
    "C131_joint",
    "C131_keys",
    "C131_mutable",
    "C131_no_params_raises",
    "C131_one_row",
    "C131_round_trip",
    "C131_variance_key_refuted"
   ],
   "note": "Networks by their init functions; model editors not included. Refuted part: C131_variance_key_refuted."
  },
  {
   "property": "C132",
   "status": "proved",
   "theorems": [
    "C132_calib_disabled_runs_all",
    "C132_calib_growing_metric_refuted",
    "C132_calib_missing_monitor_raises",
    "C132_calib_monitor",
    "C132_calib_stop_rule",
    "C132_disabled_ignores",
    "C132_disabled_runs_all",
    "C132_dropping_metric_runs",
    "C132_fit_monitor",
    "C132_growing_metric_refuted",
    "C132_keys",
    "C132_missing_monitor_raises",
    "C132_stop_rule"
   ],
   "note": "C132_growing_metric_refuted records a defect: early_stopping_mode cannot be configured and is always \"min\"."
  },
  {
   "property": "C133",
   "status": "proved",
   "theorems": [
    "C133_calls_anew",
    "C133_framework",
    "C133_framework_dict_targets",
    "C133_input_shape_refuted",
    "C133_labels_kept",
    "C133_one_shot_refuted",
    "C133_repeatable",
    "C133_views",
    "C133_views_calls_refuted",
    "C133_views_one_shot_refuted"
   ],
   "note": "The _refuted theorems record that loaders of iterators, and views of reshuffling loaders, do not behave like loaders of lists."
  },
  {
   "property": "C134",
   "status": "proved",
   "theorems": [
    "C134_calibration",
    "C134_calibration_one_shot_refuted",
    "C134_classifier",
    "C134_classifier_calls",
    "C134_classifier_empty_raises",
    "C134_classifier_one_shot_refuted",
    "C134_empty_calibration_refuted",
    "C134_empty_validation_raises",
    "C134_fit_one_shot_refuted",
    "C134_regressor",
    "C134_regressor_calls",
    "C134_regressor_empty_raises",
    "C134_regressor_one_shot_refuted",
    "C134_validation",
    "C134_validation_one_shot_refuted"
   ],
   "note": "Without gradient accumulation and early stopping, from a fresh state. The _refuted theorems record that an empty calibration loader silently skips calibration and that loaders of iterators never work."
  },
  {
   "property": "C135",
   "status": "proved",
   "theorems": [
    "C135_posterior",
    "C135_calib",
    "C135_output_by_name",
    "C135_no_checkpoint",
    "C135_unknown_name",
    "C135_conversion",
    "C135_conversion_rejected",
    "C135_replace",
    "C135_replace_unknown",
    "C135_replace_known",
    "C135_init",
    "C135_init_without_optimizer",
    "C135_init_unknown",
    "C135_output_no_mutable_refuted",
    "C135_calib_in_posterior",
    "C135_posterior_in_output",
    "C135_output_in_calib",
    "C135_posterior_in_calib_refuted"
   ],
   "note": "The _refuted theorems record unreadable output calibrator states and readers that take the wrong states. Assumes optimizer initialisation gives dictionaries without repeated keys."
  },
  {
   "property": "C136",
   "status": "proved",
   "theorems": [
    "C136_dynamic_scale_refuted",
    "C136_long_names_once",
    "C136_long_names_refuted",
    "C136_plain_gradient",
    "C136_short_names"
   ],
   "note": "A training step is the identity on the fields other than by rebuilding dictionaries with sorted keys; what it does to parameters and optimizer state is the subject of other properties. The _refuted theorems record that long names and loss scaling do not survive."
  },
  {
   "property": "C137",
   "status": "proved",
   "theorems": [
    "C137_mean_rows",
    "C137_outputs_rows",
    "C137_variance_rows",
    "C137_variance_given",
    "C137_batching",
    "C137_mean_of_outputs",
    "C137_entropies_one_key",
    "C137_entropy_rows",
    "C137_entropies_batching",
    "C137_outputs_loader",
    "C137_outputs_loader_devices",
    "C137_outputs_loader_devices_refuted"
   ],
   "note": "posterior.sample is a function of its key, outputs are row-wise (train=False), one component of the target. The refuted theorem is about _sample_outputs_loader."
  },
  {
   "property": "C138",
   "status": "proved",
   "theorems": [
    "C138_explicit_key_refuted",
    "C138_sample_rows",
    "C138_rows_share_noise_refuted",
    "C138_regression_rows",
    "C138_class_row_keys",
    "C138_batching_refuted",
    "C138_auxiliary_outputs_refuted",
    "C138_unknown_auxiliary"
   ],
   "note": "Refuted theorems are findings. Distribution over devices of sample is in C08."
  },
  {
   "property": "C139",
   "status": "proved",
   "theorems": [
    "C139_average_draws",
    "C139_average_then_any_refuted",
    "C139_entropies_draws",
    "C139_entropies_then_average_refuted",
    "C139_history",
    "C139_one_call",
    "C139_samples_draws",
    "C139_samples_then_average_refuted",
    "C139_variances_draws",
    "C139_variances_twice_refuted"
   ],
   "note": "Keys are paths of splits and folds; [label] covers both settings of jax_threefry_partitionable. Keys drawn for initialisation are not part of the histories."
  },
  {
   "property": "C140",
   "status": "proved",
   "theorems": [
    "C140_cyclical_noise",
    "C140_noise_keys_independent",
    "C140_runs_draw",
    "C140_sghmc_noise",
    "C140_tree_keys",
    "C140_tree_normals"
   ],
   "note": "Keys are paths of splits; parameters are nested dictionaries; one entry of one leaf followed at a time."
  },
  {
   "property": "C141",
   "status": "proved",
   "theorems": [
    "C141_direct_refuted",
    "C141_posterior_draws",
    "C141_refinement",
    "C141_request_independent",
    "C141_sample_keys",
    "C141_sampler_refuted",
    "C141_session_independent"
   ],
   "note": "Which keys each request and each posterior draws from is modelled; Direct and sampler_refuted are the exceptions found."
  },
  {
   "property": "C142",
   "status": "proved",
   "theorems": [
    "C142_fits_independent",
    "C142_generator_uses",
    "C142_uses_advance",
    "C142_ensemble_members",
    "C142_map_fit_keys",
    "C142_flow_validation",
    "C142_sampler_reuse_refuted"
   ],
   "note": "The order of uses of the generator in each fit is modelled; networks draw from the keys passed to init only."
  },
  {
   "property": "C143",
   "status": "proved",
   "theorems": [
    "C143_bad_loaders",
    "C143_class_log_prob",
    "C143_classification",
    "C143_odd_widths",
    "C143_outputs",
    "C143_reg_log_prob",
    "C143_regression",
    "C143_std",
    "C143_whole_calibrator_refuted"
   ],
   "note": "Outputs are matrices given by rows; keyword arguments left out. odd_widths and whole_calibrator_refuted are findings."
  },
  {
   "property": "C144",
   "status": "proved",
   "theorems": [
    "C144_calls_apart",
    "C144_calls_apart_refuted",
    "C144_class_samples",
    "C144_odd_widths",
    "C144_refused",
    "C144_reg_entropy",
    "C144_reg_samples",
    "C144_row_keys"
   ],
   "note": "Normal numbers and categorical choices are arbitrary functions of their key and position."
  },
  {
   "property": "C145",
   "status": "proved",
   "theorems": [
    "C145_counts",
    "C145_given_samples",
    "C145_list_refuted",
    "C145_one_tailed",
    "C145_quantile",
    "C145_quantiles",
    "C145_refused",
    "C145_two_tailed",
    "C145_unknown_type",
    "C145_vector_targets"
   ],
   "note": "Levels are rational; jnp.quantile refusing python lists is a fact about jax taken from its argument check."
  },
  {
   "property": "C146",
   "status": "proved",
   "theorems": [
    "C146_no_state",
    "C146_classification",
    "C146_regression",
    "C146_std",
    "C146_log_prob",
    "C146_samples"
   ],
   "note": "The state repository holds the last state; reading it from disk is C16 and C135."
  },
  {
   "property": "C147",
   "status": "proved",
   "theorems": [
    "C147_chosen",
    "C147_devices_refuted",
    "C147_diagonal_refuted",
    "C147_draw",
    "C147_fit",
    "C147_local_refuted",
    "C147_nan_refuted",
    "C147_nonnegative",
    "C147_not_tuned"
   ],
   "note": "NaN is None; parameters are one flat vector. The _refuted theorems say what is returned where the claim fails."
  },
  {
   "property": "C148",
   "status": "proved",
   "theorems": [
    "C148_aligned",
    "C148_replacement_refuted",
    "C148_rows"
   ],
   "note": "Masks of the generator are a parameter; the docstring's \"with replacement\" is refuted within a pass."
  },
  {
   "property": "C149",
   "status": "proved",
   "theorems": [
    "C149_frozen",
    "C149_labels",
    "C149_no_function",
    "C149_trainable"
   ],
   "note": "optax.multi_transform modelled as an optimizer per label on its own leaves (optax.masked), on the list of leaves."
  },
  {
   "property": "C150",
   "status": "proved",
   "theorems": [
    "C150_given_axes",
    "C150_given_grid",
    "C150_grid_only_refuted",
    "C150_order",
    "C150_own_axes",
    "C150_rejects",
    "C150_ticks_refuted"
   ],
   "note": "What is handed to matplotlib; styles and files are not modelled. The grid-only call and remove_ticks are refuted."
  },
  {
   "property": "C151",
   "status": "proved",
   "theorems": [
    "C151_lines",
    "C151_single",
    "C151_label",
    "C151_argsort",
    "C151_rejects",
    "C151_broadcast",
    "C151_one_confidence",
    "C151_shape"
   ],
   "note": "What is handed to matplotlib; argsort is any sorting permutation, and one is shown to exist."
  },
  {
   "property": "C152",
   "status": "proved",
   "theorems": [
    "C152_coverage",
    "C152_share",
    "C152_twice_error_refuted"
   ],
   "note": "Deterministic hold-out form of the CV+ guarantee (for exchangeable data the miscoverage is the expected share). All folds have the same size; the model of cv_plus is that of C28."
  },
  {
   "property": "C153",
   "status": "proved",
   "theorems": [
    "C153_diagram",
    "C153_empty_bins",
    "C153_mismatch",
    "C153_zero_bin_refuted"
   ],
   "note": "What is handed to matplotlib by the reliability diagram; exact arithmetic."
  },
  {
   "property": "C154",
   "status": "proved",
   "theorems": [
    "C154_calibration",
    "C154_hyperparameters_refuted",
    "C154_map",
    "C154_mutable_refuted",
    "C154_succeeds"
   ],
   "note": "C154_map and C154_calibration describe every successful run without accumulation (accumulation is C22); C154_succeeds gives success. The claims for mutable variables of calibration models and for hyperparameters of SWAG and calibration models are refuted (C154_mutable_refuted, C154_hyperparameters_refuted)."
  },
  {
   "property": "C155",
   "status": "proved",
   "theorems": [
    "C155_full",
    "C155_ensemble",
    "C155_succeeds",
    "C155_mutable_refuted",
    "C155_ensemble_mutable_refuted"
   ],
   "note": "The clause on calibrators with mutable variables is a defect (C155_mutable_refuted). Differentiation, optimizer, calibrator, log-mean-exp and means over the ensemble are parameters; one device; exceptions of the validation loss are not modelled (same variables fail at the next training step)."
  },
  {
   "property": "C156",
   "status": "proved",
   "theorems": [
    "C156_loss_down",
    "C156_loss_down_refuted",
    "C156_loss_step",
    "C156_stay_refuted",
    "C156_stop_reasons"
   ],
   "note": "Axiom-free, rationals. Subgradient inequality of the shifted pinball loss, neighbours of the chosen shift on the grid. The two _refuted theorems are findings."
  },
  {
   "property": "C157",
   "status": "proved",
   "theorems": [
    "C157_after_map",
    "C157_average_refuted",
    "C157_first_epoch",
    "C157_fit",
    "C157_is_map",
    "C157_one_batch",
    "C157_weights_of_epochs"
   ],
   "note": "C157_fit gives the trajectory and the exact weights, C157_after_map the composition with the preliminary MAP fit, C157_is_map the equality with a MAP run. C157_average_refuted: with several batches per epoch the mean is not the average of the iterates; of the first epoch only the last iterate counts (C157_first_epoch)."
  },
  {
   "property": "C158",
   "status": "proved",
   "theorems": [
    "C158_cyclical",
    "C158_cyclical_dynamics",
    "C158_reports",
    "C158_sghmc",
    "C158_sghmc_dynamics",
    "C158_stopping_refuted"
   ],
   "note": "C158_sghmc and C158_cyclical give the trajectory and the kept samples, the _dynamics theorems the updates in closed form, C158_reports the reported values. C158_stopping_refuted: early stopping monitors the log joint probability as if lower were better."
  },
  {
   "property": "C159",
   "status": "proved",
   "theorems": [
    "C159_determinant",
    "C159_fit_and_draws",
    "C159_training"
   ],
   "note": "C159_training for any way of arranging vectors as parameters, C159_fit_and_draws for whole fits without frozen parameters and the draws afterwards. Sizes of arrays are fixed during training; frozen parameters are the subject of C83 and C118."
  },
  {
   "property": "C160",
   "status": "proved",
   "theorems": [
    "C160_map",
    "C160_one_member",
    "C160_session",
    "C160_succeeds"
   ],
   "note": "Composition of the models of C154, C155 and C137. Networks and calibrators work row by row in evaluation mode. Without distribution of the calibration outputs over devices (C98 refutes that case), and for calibrators without mutable variables (C155 refutes the others)."
  },
  {
   "property": "C161",
   "status": "proved",
   "theorems": [
    "C161_final_features_refuted",
    "C161_fit",
    "C161_fixed_features",
    "C161_predictions",
    "C161_succeeds",
    "C161_variance"
   ],
   "note": "Fits without gradient accumulation beyond one step; callbacks of the user are not modelled. Statements about evaluations assume a positive ridge penalty, a factor of at least zero and a Cholesky routine that returns the factor when there is one."
  },
  {
   "property": "C162",
   "status": "proved",
   "theorems": [
    "C162_again",
    "C162_draws",
    "C162_exact",
    "C162_fit",
    "C162_frozen_diagonal_refuted",
    "C162_nonnegative",
    "C162_predictions",
    "C162_succeeds",
    "C162_tuned"
   ],
   "note": "Parameters are one flat vector of real numbers (FlatModel.v models their trees and the order in which paths come back). Automatic differentiation, Hessians and eigendecompositions are parameters with stated requirements. C162_succeeds contains the failing case of a freeze function that freezes everything; C162_frozen_diagonal_refuted is the other finding."
  },
  {
   "property": "C163",
   "status": "proved",
   "theorems": [
    "C163_applied",
    "C163_checks",
    "C163_failed_refuted",
    "C163_grid",
    "C163_label_refuted",
    "C163_loss_refuted",
    "C163_patches",
    "C163_range_refuted",
    "C163_sum_refuted",
    "C163_uncalibrated",
    "C163_unit"
   ],
   "note": "exact rational arithmetic; C163_grid needs values on bucket centres, C163_loss_refuted shows why"
  },
  {
   "property": "C164",
   "status": "proved",
   "theorems": [
    "C164_checks",
    "C164_succeeds",
    "C164_test",
    "C164_recorded",
    "C164_improves",
    "C164_multiplicative",
    "C164_apply",
    "C164_pointwise",
    "C164_initial",
    "C164_error",
    "C164_chosen",
    "C164_bucket_types",
    "C164_types_refuted",
    "C164_lost_refuted",
    "C164_lengths_refuted",
    "C164_narrow_refuted",
    "C164_nothing_refuted",
    "C164_coverage_refuted",
    "C164_late_refuted",
    "C164_rare_refuted",
    "C164_error_lengths"
   ],
   "note": "Q only, no axioms. The loop is that of MultiModel.v; non-finite patches and NaN are not modelled."
  },
  {
   "property": "C165",
   "status": "proved",
   "theorems": [
    "C165_sets",
    "C165_inside",
    "C165_group",
    "C165_grid",
    "C165_coverage",
    "C165_floor",
    "C165_odd_groups",
    "C165_gap_refuted"
   ],
   "note": "Exact arithmetic. C165_gap_refuted: with eta below one a threshold can lie in no bucket, where calibration_error does not see it."
  },
  {
   "property": "C166",
   "status": "proved",
   "theorems": [
    "C166_brier",
    "C166_checks",
    "C166_f1",
    "C166_failed_refuted",
    "C166_int32_refuted",
    "C166_lengths_refuted",
    "C166_multi_answers",
    "C166_multi_fit",
    "C166_negative_refuted",
    "C166_no_positive",
    "C166_outcome",
    "C166_predictions",
    "C166_probabilities",
    "C166_refit",
    "C166_temperatures"
   ],
   "note": "Exact arithmetic with infinities and NaN for division by zero; the Newton search that follows the grid is a parameter (assumed not to increase the loss where optimality is claimed). Refuted: a failed F1 fit keeps the new threshold, int32 targets are rejected, Bias accepts different lengths, negative class targets count from the end."
  },
  {
   "property": "C167",
   "status": "proved",
   "theorems": [
    "C167_frozen_members",
    "C167_optimizer_ignored",
    "C167_without_freeze",
    "C167_without_preliminary",
    "C167_prefix",
    "C167_samplers",
    "C167_samplers_start",
    "C167_dumped_refuted",
    "C167_accumulated_refuted",
    "C167_optimizer_refuted"
   ],
   "note": "Losses, differentiation, optimizers and tree arithmetic are parameters; descent is stated for runs without gradient accumulation. Refuted: an ensemble with frozen parameters after a preliminary MAP run is trained with the optimizer of map_fit_config; it fails when that run dumps its state or when both runs accumulate gradients."
  },
  {
   "property": "C168",
   "status": "proved",
   "theorems": [
    "C168_start",
    "C168_start_frozen",
    "C168_continue",
    "C168_continue_frozen",
    "C168_two",
    "C168_two_frozen",
    "C168_then_frozen",
    "C168_unfreeze_refuted",
    "C168_wider_refuted",
    "C168_order_refuted"
   ],
   "note": "Training is a parameter; finding the state is C113, optimizer states and mutable variables are left out. Refuted: continuing a frozen state without freeze function or with more trainable arrays, and keeping the means when trainable paths are not in sorted order."
  },
  {
   "property": "C169",
   "status": "proved",
   "theorems": [
    "C169_continue",
    "C169_continue_frozen",
    "C169_any_number",
    "C169_storage",
    "C169_as_one",
    "C169_accumulated_refuted",
    "C169_reset_refuted",
    "C169_leftover_refuted"
   ],
   "note": "Optimizer, objective and gradients are parameters; finding the state is C113. Refuted: equality of two fits and one for optimizers with a state, accumulated gradients in checkpoints, and other trainable parameters while gradients are accumulated."
  },
  {
   "property": "C170",
   "status": "proved",
   "theorems": [
    "C170_last_fit",
    "C170_only_parameters",
    "C170_path",
    "C170_forgotten_refuted"
   ],
   "note": "Network, objective, optimizer and gradients are parameters; without frozen parameters. Refuted: the statistics after two fits are those of one fit with the epochs of both."
  },
  {
   "property": "C171",
   "status": "proved",
   "theorems": [
    "C171_last_cyclical",
    "C171_last_sghmc",
    "C171_only_parameters",
    "C171_same_storage",
    "C171_stopped",
    "C171_storage_refuted"
   ],
   "note": "Network, objective, integrator and gradients are parameters; without frozen parameters, samples kept in memory. Refuted: continuing from the checkpoint and from the current state is the same."
  },
  {
   "property": "C172",
   "status": "proved",
   "theorems": [
    "C172_bounds",
    "C172_distance",
    "C172_distance_normalized",
    "C172_distilbert",
    "C172_inputs",
    "C172_manager",
    "C172_tuple_refuted",
    "C172_values"
   ],
   "note": "The pretrained transformers and the position ids of RoBERTa are parameters; real arithmetic. Refuted: in training the manager returns the features alone whatever the configuration."
  },
  {
   "property": "C173",
   "status": "proved",
   "theorems": [
    "C173_calls",
    "C173_checkpoint_refuted",
    "C173_checkpoints",
    "C173_key_refuted",
    "C173_observers",
    "C173_updates_refuted"
   ],
   "note": "Callbacks that raise are left out. The order of calls assumes that callbacks keep the step number. Refuted: the checkpoint of a step has the changes of the callbacks; callbacks see every update under gradient accumulation; callbacks can set the key of the next batch."
  },
  {
   "property": "C174",
   "status": "proved",
   "theorems": [
    "C174_longer_refuted",
    "C174_members",
    "C174_shared"
   ],
   "note": "Which stored state a member finds is C115; here members are the states that the last fit stored. Shared parameters assume a preliminary run kept in memory, gradient accumulation 1 in the first fit and optimizers that keep the structure. Refuted: with a preliminary run, continuing a fit is fitting longer."
  },
  {
   "property": "C175",
   "status": "proved",
   "theorems": [
    "C175_calls",
    "C175_members_refuted",
    "C175_observers"
   ],
   "note": "Callbacks that raise are left out; the order of calls assumes that callbacks keep the step number. Refuted: members do not depend on earlier members when callbacks have attributes and change states."
  },
  {
   "property": "C176",
   "status": "proved",
   "theorems": [
    "C176_longer",
    "C176_outputs",
    "C176_outputs_refuted",
    "C176_posterior",
    "C176_reset_refuted"
   ],
   "note": "Calibrators without mutable variables (others fail, C155); posteriors that restore a checkpoint for calibration are in C96. Differentiation is a parameter that depends only on the values of the function. Refuted: calibrating again is calibrating longer, for posteriors with optimizers with state and for given outputs."
  },
  {
   "property": "C177",
   "status": "proved",
   "theorems": [
    "C177_bounds",
    "C177_cyclical",
    "C177_documented_cyclical_refuted",
    "C177_documented_sghmc_refuted",
    "C177_intended",
    "C177_intended_refuted",
    "C177_long_thinning_refuted"
   ],
   "note": "Model McmcModel.v (callbacks), formulas AvailSpec.v. Exploration ratios are rationals, not floats: the phase of a step is computed exactly. Refuted parts are proved as such; that accepted requests are stored is C50."
  },
  {
   "property": "C178",
   "status": "proved",
   "theorems": [
    "C178_descent",
    "C178_succeeds",
    "C178_frozen",
    "C178_succeeds_frozen",
    "C178_any_number",
    "C178_anew",
    "C178_storage",
    "C178_longer",
    "C178_twice_refuted",
    "C178_reset_refuted"
   ],
   "note": "Model CmRunModel.v on the training of EnsModel.v. A stored state is the one that the last calibration returned: checkpoints saved during training, early stopping and the checks of dimensions are in C64, C20 and C95. What the loss raises for mutable variables (C95) is one exception here. Refuted parts are proved on toys."
  }
 ]
}