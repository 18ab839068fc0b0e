# Formal model of awslabs/fortuna in Rocq (Coq 8.16.1)

## 1. Method

The Python/JAX code is modelled function by function as total, executable Gallina
definitions. Every definition carries a comment with the file and lines it models and the
simplifications made. For each area there are up to four files in `rocq/theories/`:

| file            | content                                                                 |
|-----------------|-------------------------------------------------------------------------|
| `<Area>Model.v` | the model: only definitions, each citing `/repo` lines                   |
| `<Area>Spec.v`  | (when needed) independent specification vocabulary                       |
| `<Area>Proofs.v`| lemmas                                                                   |
| `<Area>Props.v` | the property theorems, each closed by `exact lemma`, with an `Example` showing a concrete non-trivial case of its hypotheses and `Print Assumptions` |

Modelling conventions

* **Numbers.** Floats are exact numbers. Where only field operations and comparisons are
  used: `Q` (executable, axiom free). Where `exp/log/sqrt/cos` are used: stdlib `R`.
  Rounding, overflow, NaN propagation and float32 are *not* modelled except where a model
  explicitly says so (0/0 as `None`).
* **Arrays** are lists of rows, polymorphic in the row type if the code never looks inside.
* **Exceptions** are values of `result A := Ok a | Err e`.
* **Iterables/generators** that can be re-iterated are the list they yield; state that is
  re-created at each pass is re-created in the model. Generators whose state persists are
  modelled as state machines.
* **Randomness** (permutations, masks, bootstraps) is a universally quantified parameter.
* **Models, likelihoods, optimizers, tokenizers** are arbitrary function parameters.
* **File system** (flax checkpoints) is an explicit state, see RepoModel.v.
* If the faithful model violates an expected property, a theorem `..._refuted` with a
  concrete witness is proved and the defect is listed in section 5.

## 2. Plan per property

| Id | Modelled | Proof idea |
|----|----------|------------|
| C01-C03 | `IterableData.from_array_data/from_batch_array_data`, `np.split`, `to_array_*`, projections | induction on chunking; permutation as list of indices |
| C04,C05 | `split`, `chop` generators with their counters | induction over batches with generalised counter |
| C06 | `inputs_loaders_to_batch_iterable` (zip_longest) | induction on rounds; Permutation |
| C07 | `transform_data_loader`, `PrefetchedGenerator` as a state machine | coinductive-free: fuel-indexed drain, simulation |
| C08 | `_loop_fun_through_*`, `_unshard_array`, device reshape | map/concat laws |
| C09-C11 | `_get_batches_idxs`, `_tokenize_fn`, `mask_tokens` | chunking lemmas |
| C12-C14 | `nested_*` over rose-tree dictionaries (association lists) | induction on paths |
| C15 | encode/decode with flax state-dict keys; decimal strings, lexicographic order | lemma on single digit keys + witness with 11 |
| C16-C19 | repositories over memory/disk with flax semantics and crash points | invariants over operation histories; simulation memory/disk |
| C20-C22 | flax EarlyStopping, `train`, `_training_loop`, grad accumulation | induction on histories |
| C23 | freeze split/merge over trees | frame property by induction on steps |
| C24 | schedules and clipping | case analysis, lra; R for norms |
| C25-C29 | `jnp.quantile` (linear interpolation), the regressors, EnbPI | sorted lists, counting |
| C30,C31 | `update_error` | induction on history |
| C32-C34 | conformal classifiers and scores | counting, sorting |
| C35 | binary max-coverage fixed-precision | argmax over grid |
| C36-C40 | multivalid calibrate/patch loops | loop invariants |
| C41-C44 | temperature scaling, metrics | algebra on Q/R |
| C45,C46 | variance/entropy decompositions | algebra; Jensen/Gibbs in R |
| C47,C48 | credible_set, conformal_set | sorted prefix sums |
| C49,C50 | sampling callbacks | arithmetic of burn-in/thinning |
| C51,C52 | SWAG, preconditioners, schedules | induction on iterates; R |
| C53,C54 | minibatch weights, Nadaraya-Watson | sums |
| C55 | `sample` of loaders | induction on batches |
| C56,C57 | multiple-choice collator, batching and balancing of hallucination data | chunking lemmas |
| C58 | `find_one_path_to_key` | induction on trees |
| C59,C60 | jackknife+ and jackknife-minmax | counting over hold-outs |
| C61,C64,C65 | keys, checkpoints and loss scaling in the training loop | loop invariants |
| C62,C66 | key streams, weight decay mask | injectivity, case analysis |
| C63 | starting states of ensemble members | frame property |
| C67 | CV+ classification, adaptive classifier | counting |
| C68-C70 | progress of multicalibration, BatchMVP, argument checks | loop invariants |
| C71 | output calibrators | monotonicity |
| C72,C73 | output layers, credible intervals | algebra, counting |
| C74-C76 | integrators, effective sample size, Stein discrepancy | induction on steps, algebra |
| C77,C78 | model managers, priors | case analysis on options, algebra |
| C79-C83 | start of fits, Laplace, ADVI | case analysis, sums over lists |
| C84-C87 | SNGP and spectral norm | linear algebra over lists |
| C88,C89 | OOD detection | algebra |
| C90,C91 | probit scaling | algebra of projections |
| C92-C98 | calibration losses, loops, models, objective | induction, algebra |
| C99-C102 | hallucination scoring, text cleaning | induction on lists and strings |
| C103-C106 | networks | induction on layers |
| C107-C109 | hashing of trainers, choice of trainer, job configuration | case analysis |
| C110-C112 | several devices | permutation of shards |
| C113-C116 | what fits do to configurations, directories, repositories | histories of operations |
| C117-C120 | flattened parameters of ADVI, SWAG, Laplace | induction on trees |
| C121-C123 | metrics collected during training | induction on batches |
| C124-C126 | Hugging Face loaders | chunking lemmas |
| C127,C128 | SNGP transformers | induction on steps, case analysis on dictionaries |
| C129-C131 | building models, checks, initial states | histories, case analysis |
| C132 | monitors | induction on epochs |
| C133,C134 | passes over the sources of loaders | histories of operations |
| C135,C136 | states: checkpoints, conversions, resuming | induction on paths and histories |
| C137-C139 | keys behind predictive quantities | keys as paths of splits, histories of calls |
| C140-C142 | keys in fits, samplers and posterior draws | keys as paths of splits, induction on trees and requests |
| C143-C146 | likelihoods and calibration models at fixed parameters | rows of batched loops, order statistics, induction |
| C147 | tuning of the prior of a Laplace posterior | induction on the candidates, real analysis |
| C148 | samples of loaders of inputs and targets | induction on passes |
| C149 | frozen optimizers | simulation of the trainable part, for all step counts |
| C150 | two-dimensional uncertainty plots | algebra of reshapes and grids |
| C151 | reliability diagrams | permutations and sortedness |
| C152 | CV+ over held-out folds | tournament counting over folds |
| C153 | reliability diagrams of classifiers | bins of increasing mean confidence |
| C154 | fits as stochastic gradient descent; ignored hyperparameters | simulation of the training loops, projection of states |
| C155 | calibrations of outputs as gradient descent | simulation of the calibration loops, losses of C94 and C52 on every state |
| C156 | BatchMVP patches and the pinball loss | subgradients of the shifted loss, neighbours of the chosen shift on the grid |
| C157 | a whole fit of SWAG: descent and statistics | simulation of the loop without statistics, closed form of the running averages by induction on batches and epochs |
| C158 | whole fits of SGHMC and cyclical SGLD | simulation of the loop without the callback, the callback folded over the visited states, closed form of the integrator by induction on updates |
| C159 | a whole fit of ADVI and the draws after it | simulation of the loop with the loss of the flow, size invariant of the descent, composition with the storing of flat vectors |
| C160 | training, calibration and predictions of MAP posteriors and deep ensembles together | composition of the theorems on fits, calibrations and draws |
| C161 | a whole fit of SNGP: descent and precision matrix | epochs with resets as a fold over the visited states, closed form of the matrix by induction on batches, composition with the Cholesky results of C85 |
| C162 | a whole fit of a Laplace posterior: start, curvature, tuning, draws, predictions | composition of the theorems on fits, curvature, tuning and draws; coordinates by induction on slots; second derivatives of sums |
| C163 | one-shot multicalibrators as objects: checks, patches, application, histories | masks and means by induction on lists, groups as sums over indicator lists, squared error by the mean minimising it; counterexamples by computation |
| C164 | iterative multivalid methods as objects: checks, patches, application, histories, calibration_error | case analysis of the checks, induction on patches and on histories of calls, the loop theorems of C28 to C40; errors of buckets as sums over masks; counterexamples by computation |
| C165 | conformal sets of BatchMVP and the coverage of groups | fold over sizes as row-wise assignment; Cauchy's inequality over buckets by induction; invariant of patches and of replay: multiples of the distance of centres; counterexample by computation |
| C166 | temperature scaling calibrators as objects | case analysis of fit per method; extended division by cases; predictions as pointwise relations; optimality from the lemmas of C41 and C42 |
| C167 | optimizers of ensembles and samplers with frozen parameters | invariants of the training loop (optimizer kept, structure kept); splitting lemmas of C23 and C63; descent as an inductive relation |
| C168 | continuing fits of ADVI: vectors a fit starts from, two fits as one, other freeze functions (ResumeModel.v) | stored state read back as an extraction (C118 lemmas); labels depend on the structure only; sizes of leaves compared; refuted on literals for unsorted keys |
| C169 | continuing fits of MAP: what is carried over, any number of fits, memory or checkpoint, two fits as one (ContModel.v) | training loop of C167 from a restored state; induction on the fits; refuted on literals for optimizers with state and left-over gradients |
| C170 | continuing fits of SWAG: any number of fits, what a fit sees of its starting state, parameters and statistics of two fits (SwagContModel.v) | C157 for the last fit, descent over concatenated epochs; refuted on literals for the statistics |
| C171 | continuing fits of stochastic gradient samplers: any number of fits, from the checkpoint or the current state (ChainContModel.v) | C158 for the last fit, last sample found by its index; refuted on literals for the two ways to continue |
| C172 | features of the transformers of SNGP: inputs left out, head, dropout, return values, distances (TfmHeadModel.v) | derivative of tanh and the mean value theorem, gain of the kernel (C87); refuted on a toy for return_dict |
| C173 | callbacks in training: order of calls, observers, checkpoints (CallModel.v) | simulation by training without callbacks (SwagProofs.train_sim), record of calls over grouped epochs (C21); refuted on toys |
| C174 | continuing fits of deep ensembles (EnsContModel.v) | lists of fits of MAP for each member (C169), structure of the parameters after the first fit; refuted on a toy |
| C175 | callbacks of deep ensembles (MemCallModel.v) | C173 for each member, with the attributes left by the members before; refuted on a toy |
| C176 | several calibrations after each other (RecalModel.v) | descents of C155 composed; refuted on toys |
| C177 | samples that samplers can keep, against the docstrings (McmcModel.v, AvailSpec.v) | counts of periodic predicates; refuted on literals and for long thinning |
| C178 | several calibrations of a calibration model (CmRunModel.v) | continued fits of C169, instantiated; induction on calls; refuted on toys |

All are expressible. Not expressible in this model: floating-point accuracy, statistical
convergence of MCMC/VI to the posterior, quality of learned models, GPU/TPU execution,
wall-clock behaviour.

## 3. Trusted base

* Coq 8.16.1's kernel and the standard library. No other library, no plugin, no axiom declared in
  this development, no kernel check switched off, nothing admitted.
* That the definitions in the `*Model.v` files say what the cited Python lines do. This is by
  reading: the code is not run.
* That the statements in the `*Props.v` files (with the vocabulary of the `*Spec.v` files) say what
  `properties.jsonl` says in English.

`Print Assumptions` follows every property theorem. Its output falls into these classes:

* **918 of 1187 theorems**: `Closed under the global context` (no axioms). All theorems not listed below.
* **3 theorems** use `ClassicalDedekindReals.sig_forall_dec` (stdlib axioms behind the real numbers):
  C82_sample, C84_missing, C84_reset_array
* **31 theorems** use `ClassicalDedekindReals.sig_forall_dec`, `FunctionalExtensionality.functional_extensionality_dep` (stdlib axioms behind the real numbers):
  C52_constant, C76_langevin_unique, C80_batching, C80_gauss_newton, C80_nonnegative, C84_momentum,
  C84_reset, C85_diagonal, C85_kernel, C88_at_mean, C88_covariance, C88_score, C88_unobserved,
  C88_unobserved_refuted, C89_jitter_total, C89_jitters, C89_moments, C89_singleton,
  C91_top_k_refuted, C91_top_k_values, C98_outputs, C111_data_parallel, C111_in_sync, C111_loss,
  C111_scaled_refuted, C112_checkpoint, C112_mean_metrics, C112_returned_refuted, C112_validated,
  C143_whole_calibrator_refuted, C145_counts
* **123 theorems** use `ClassicalDedekindReals.sig_forall_dec`, `ClassicalDedekindReals.sig_not_dec`, `FunctionalExtensionality.functional_extensionality_dep` (stdlib axioms behind the real numbers):
  C24_clip_by_norm, C24_clip_by_norm_direction, C24_clip_by_norm_nearly, C24_clip_by_norm_small,
  C44_rmae_square, C44_rmse_square, C50_first_sample_refuted, C51_sample, C52_burnin, C52_cosine,
  C52_cosine_restarts, C52_cyclical, C52_cyclical_offset, C52_rmsprop_constant, C52_rmsprop_inverse,
  C52_rmsprop_range, C54_constant_refuted, C54_defined, C54_lengths, C54_range, C54_weighted_mean,
  C71_logits_initial, C71_logits_prediction, C71_regression, C71_softmax, C72_regression_sample,
  C72_std, C72_std_refuted, C74_counts, C74_exploration, C74_keys, C74_momentum_forgotten,
  C74_sampling, C74_sghmc, C74_sghmc_run, C74_sgld, C74_sgld_rmsprop, C74_sgld_rmsprop_run,
  C78_constant_sample, C78_diagonal_sample_scale, C78_sample_scale, C80_classification_nonnegative,
  C80_regression_refuted, C80_sample, C80_std, C80_std_hessian, C82_inverse, C82_inverse_back,
  C84_bound, C84_exact, C84_layer, C85_away, C85_bounds, C85_factor_exists, C85_features,
  C85_more_data, C85_seen, C85_stationary, C86_mean_field, C87_bound, C87_bound_refuted,
  C87_estimate_below, C87_estimate_increases, C87_identity, C87_never_grows, C87_tracked, C90_full,
  C90_top_k, C90_top_zero, C91_bounds, C91_memory, C91_memory_refuted, C91_output, C91_scales,
  C92_scaled_mse_odd, C100_normalize_affine, C100_normalize_undefined, C100_normalized,
  C112_rmse_below, C112_rmse_refuted, C127_plain_converges, C127_plain_evaluation,
  C127_plain_repeated, C127_transformer_bound_refuted, C127_transformer_frozen,
  C127_transformer_unnormalized, C140_cyclical_noise, C140_runs_draw, C140_sghmc_noise,
  C143_regression, C143_std, C144_class_samples, C144_odd_widths, C144_reg_samples,
  C145_given_samples, C145_list_refuted, C145_one_tailed, C145_quantile, C145_quantiles,
  C145_refused, C145_two_tailed, C145_unknown_type, C145_vector_targets, C146_regression, C146_std,
  C147_draw, C147_nonnegative, C158_cyclical_dynamics, C158_sghmc_dynamics,
  C161_final_features_refuted, C161_fit, C161_fixed_features, C161_predictions, C161_succeeds,
  C161_variance, C162_draws, C162_predictions, C172_bounds, C172_distilbert, C172_inputs,
  C172_manager, C172_tuple_refuted, C172_values
* **112 theorems** use `ClassicalDedekindReals.sig_forall_dec`, `ClassicalDedekindReals.sig_not_dec`, `Classical_Prop.classic`, `FunctionalExtensionality.functional_extensionality_dep` (stdlib axioms behind the real numbers):
  C41_crossentropy_nonneg, C41_crossentropy_optimal, C42_compose, C42_distribution, C42_flatten,
  C42_identity, C42_loss, C42_loss_nonneg, C42_negative_reverses, C42_optimal, C42_order,
  C42_prediction, C46_agreement, C46_bounds, C46_entropy, C46_log_probability,
  C46_regression_entropy, C46_regression_epistemic_refuted, C52_polynomial, C54_kernel, C71_logits,
  C72_entropy, C72_log_probability, C72_masked, C72_masked_total, C72_out_of_range, C72_predict,
  C72_regression, C72_regression_mode, C72_regression_odd, C76_arguments, C76_discrepancy,
  C76_langevin, C76_nonnegative, C76_single, C76_symmetric, C76_translation, C78_constant_diagonal,
  C78_diagonal, C78_isotropic, C78_mode, C78_shrinkage, C80_classification_hessian, C80_log_prob,
  C80_regression_hessian, C80_std_prior, C82_change_of_variables, C82_density, C82_elbo,
  C82_sample_density, C86_confidence, C89_density, C89_monotone, C89_score, C89_unobserved_refuted,
  C90_argmax_refuted, C90_shrinks, C92_best_variance, C92_cross_entropy, C92_cross_entropy_nonneg,
  C92_focal, C92_focal_antitone, C92_focal_below_cross_entropy, C92_focal_decreasing,
  C92_focal_default_gap, C92_focal_zero, C92_out_of_range, C92_scaled_mse, C92_shift, C98_devices,
  C98_devices_refuted, C98_objective, C98_objective_bounds, C98_objective_pointwise_refuted,
  C98_objective_single, C99_all_tokens, C99_equal_lengths, C99_geometric_mean, C99_nothing_to_score,
  C99_padding_refuted, C99_unknown_token, C137_entropies_one_key, C137_entropy_rows,
  C143_bad_loaders, C143_class_log_prob, C143_classification, C143_odd_widths, C143_reg_log_prob,
  C144_reg_entropy, C146_classification, C146_log_prob, C146_no_state, C146_samples, C147_chosen,
  C147_devices_refuted, C147_diagonal_refuted, C147_fit, C147_local_refuted, C147_nan_refuted,
  C147_not_tuned, C162_again, C162_exact, C162_fit, C162_frozen_diagonal_refuted, C162_nonnegative,
  C162_succeeds, C162_tuned, C166_multi_answers, C166_multi_fit, C166_negative_refuted,
  C172_distance, C172_distance_normalized

## 4. What is modelled

Each definition of a model file cites file and lines. One row per model file; simplifications are in the
header and the comments of the file.

| model | code | properties |
|---|---|---|
| ApiModel.v | `utils/builtins.py`, `training/trainer.py`, `utils/device.py`, `sagemaker/utils.py` | C107–C109 |
| BinPlotModel.v | `metric/classification.py` | C153 |
| BuildModel.v | `prob_model/classification.py`, `prob_model/base.py`, `model/model_manager/name_to_model_manager.py`, `prob_model/posterior/posterior_approximations.py`, `model/model_manager/state.py`, `utils/data.py`, `utils/random.py`, `_approximator.py`, `sngp_approximator.py`, `posterior/base.py`, `model_manager/classification.py`, `sngp_posterior.py`, `data/loader/base.py`, `output_calib_manager/state.py`, `output_calib_manager/base.py`, `joint/base.py`, `joint/state.py`, `array_loaders.py`, `model_manager/regression.py` | C129–C131 |
| CalRunModel.v | `output_calib_model/output_calib_model_calibrator.py`, `prob_model/prob_model_calibrator.py`, `training/output_calibrator.py`, `prob_model/base.py`, `output_calib_model/base.py`, `output_calib_model/loss.py`, `prob_model/predictive/base.py`, `likelihood/base.py` | C155 |
| CalibModel.v | `training/output_calibrator.py`, `prob_model/base.py`, `prob_model/prob_model_calibrator.py`, `prob_model/predictive/base.py`, `utils/data.py`, `training/mixin.py`, `output_calib_model/output_calib_model_calibrator.py`, `output_calibrator/output_calib_manager/base.py`, `output_calib_model/loss.py`, `output_calib_model/predictive/base.py`, `output_calib_model/classification.py`, `output_calib_model/base.py`, `calib_model/loss.py`, `calib_model/classification.py`, `calib_model/regression.py`, `prob_model/classification.py`, `calib_model/base.py`, `likelihood/base.py` | C93–C98 |
| CallModel.v | `training/callback.py`, `training/trainer.py` | C173 |
| ChainContModel.v | `prob_model/posterior/sgmcmc/sgmcmc_posterior.py`, `sghmc/sghmc_posterior.py`, `cyclical_sgld/cyclical_sgld_posterior.py`, `sghmc/sghmc_state.py`, `training/trainer.py`, `posterior_multi_state_repository.py`, `train_state_repository.py`, `cyclical_sgld_state.py` | C171 |
| ChainModel.v | `prob_model/posterior/sgmcmc/sghmc/sghmc_posterior.py`, `cyclical_sgld/cyclical_sgld_posterior.py`, `joint/base.py`, `sgmcmc_sampling_callback.py`, `cyclical_sgld_integrator.py` | C158 |
| CmRunModel.v | `calib_model/base.py`, `calib_mixin.py`, `calib_model_calibrator.py`, `calib_model/state.py`, `training/train_state_repository.py`, `calib_model/loss.py` | C178 |
| ConfClassModel.v | `base.py`, `simple_prediction.py`, `adaptive_prediction.py`, `adaptive_conformal_classifier.py`, `maxcovfixprec_binary_classfication.py` | C32–C35, C67 |
| ConfRegModel.v | `base.py`, `quantile.py`, `onedim_uncertainty.py`, `jackknifeplus.py`, `jackknife_minmax.py`, `cvplus.py`, `enbpi.py`, `adaptive_conformal_regressor.py` | C25–C31, C59–C60 |
| ContModel.v | `prob_model/posterior/map/map_posterior.py`, `posterior/base.py`, `training/train_state_repository.py`, `training/mixin.py`, `posterior/state.py`, `deep_ensemble_posterior.py` | C169 |
| DescModel.v | `prob_model/posterior/map/map_trainer.py`, `calib_model/calib_model_calibrator.py`, `prob_model/fit_config/hyperparameters.py`, `calib_model/config/hyperparameters.py`, `map_posterior.py`, `deep_ensemble_posterior.py`, `swag_posterior.py`, `calib_model/base.py`, `trainer.py`, `prob_model/joint/base.py`, `likelihood/base.py`, `calib_model/loss.py`, `prob_model/fit_config/monitor.py`, `classification.py`, `regression.py` | C154 |
| DevModel.v | `training/trainer.py`, `prob_model/joint/base.py`, `likelihood/base.py` | C110–C112 |
| DrawModel.v | `utils/random.py`, `prob_model/predictive/base.py`, `prob_model/predictive/regression.py`, `likelihood/base.py`, `prob_output_layer/classification.py`, `prob_output_layer/regression.py`, `trainer.py` | C137–C139 |
| EnsContModel.v | `prob_model/posterior/deep_ensemble/deep_ensemble_posterior.py` | C174 |
| EnsModel.v | `prob_model/posterior/deep_ensemble/deep_ensemble_posterior.py`, `sgmcmc/sghmc/sghmc_posterior.py`, `cyclical_sgld_posterior.py`, `posterior/base.py`, `run_preliminary_map.py`, `training/trainer.py`, `posterior/state.py`, `map_posterior.py`, `sghmc_state.py`, `cyclical_sgld_state.py` | C167 |
| FitModel.v | `posterior/base.py`, `map_posterior.py`, `swag_posterior.py`, `advi_posterior.py`, `laplace_posterior.py`, `sngp_posterior.py`, `deep_ensemble_posterior.py`, `sghmc_posterior.py`, `cyclical_sgld_posterior.py`, `sgmcmc_posterior.py`, `fit_config/base.py`, `prob_model/base.py`, `fit_config/checkpointer.py`, `posterior/state.py`, `mixin.py`, `trainer.py`, `sgmcmc_sampling_callback.py`, `sghmc_state.py` | C113–C116 |
| FlatModel.v | `prob_model/posterior/normalizing_flow/advi/advi_trainer.py`, `advi_posterior.py`, `posterior/swag/swag_trainer.py`, `swag_posterior.py`, `posterior/laplace/laplace_posterior.py`, `advi_architecture.py`, `laplace_state.py` | C117–C120 |
| FlowModel.v | `prob_model/posterior/normalizing_flow/normalizing_flow_trainer.py`, `advi/advi_architecture.py`, `advi/advi_trainer.py`, `advi/advi_posterior.py`, `distribution/gaussian.py` | C159 |
| FreezeModel.v | `utils/freeze.py`, `training/trainer.py`, `prob_model/posterior/base.py`, `prob_model/posterior/deep_ensemble/deep_ensemble_posterior.py` | C23, C63 |
| FrzModel.v | `utils/freeze.py` | C149 |
| GpFitModel.v | `prob_model/posterior/sngp/sngp_posterior.py`, `sngp_callback.py`, `model_manager/classification.py`, `map_posterior.py`, `likelihood/base.py` | C161 |
| HallModel.v | `scoring/inv_perplexity.py`, `grouping/clustering/base.py`, `utils/string.py` | C99–C102 |
| HfModel.v | `data/dataset/huggingface_datasets.py`, `huggingface_loaders.py`, `data_collator.py` | C124–C126 |
| IterModel.v | `conformal/multivalid/base.py`, `iterative/base.py`, `iterative/multicalibrator.py`, `iterative/batch_mvp.py`, `iterative/classification/binary_multicalibrator.py`, `iterative/classification/top_label_multicalibrator.py` | C164 |
| LapFitModel.v | `prob_model/posterior/laplace/laplace_posterior.py`, `laplace_state.py`, `posterior/run_preliminary_map.py`, `prior/gaussian.py`, `predictive/base.py` | C162 |
| LapModel.v | `prob_model/posterior/base.py`, `distribution/gaussian.py`, `_state.py`, `laplace_posterior.py`, `laplace_state.py`, `advi_trainer.py`, `advi_posterior.py`, `advi_architecture.py`, `normalizing_flow_trainer.py` | C79–C83 |
| LhpModel.v | `likelihood/base.py`, `likelihood/classification.py`, `likelihood/regression.py`, `prob_output_layer/classification.py`, `prob_output_layer/regression.py` | C143–C146 |
| LikModel.v | `likelihood/base.py`, `prob_model/prior/gaussian.py`, `model/model_manager/classification.py`, `model/model_manager/regression.py`, `output_calibrator/output_calib_manager/base.py`, `prob_model/joint/base.py`, `model/model_manager/state.py`, `kernel_regression/nadaraya_watson.py` | C53–C54, C77–C78 |
| LoaderModel.v | `loader/utils.py`, `array_loaders.py`, `likelihood/base.py`, `predictive/base.py` | C01–C08, C55 |
| LossModel.v | `loss/classification/cross_entropy.py`, `loss/classification/focal_loss.py`, `loss/regression/scaled_mse.py` | C92 |
| McmcModel.v | `sghmc_callback.py`, `cyclical_sgld_callback.py`, `sgmcmc_sampling_callback.py`, `swag_trainer.py`, `swag_posterior.py`, `sgmcmc_diagnostic.py`, `sgmcmc_step_schedule.py`, `sgmcmc_preconditioner.py`, `sghmc_integrator.py`, `cyclical_sgld_integrator.py` | C49–C52, C74–C76 |
| MemCallModel.v | `prob_model/posterior/deep_ensemble/deep_ensemble_posterior.py`, `trainer.py` | C175 |
| MetricModel.v | `metric/classification.py`, `metric/regression.py` | C43–C44 |
| MonModel.v | `prob_model/fit_config/monitor.py`, `prob_model/calib_config/monitor.py`, `calib_model/config/monitor.py`, `training/mixin.py`, `map_posterior.py`, `advi_posterior.py`, `deep_ensemble_posterior.py`, `sghmc_posterior.py`, `cyclical_sgld_posterior.py`, `swag_posterior.py`, `calib_model/base.py`, `output_calibrator.py`, `prob_model/base.py`, `output_calib_model/base.py`, `map_trainer.py` | C132 |
| MultiModel.v | `iterative/base.py`, `iterative/multicalibrator.py`, `iterative/batch_mvp.py`, `one_shot/base.py`, `one_shot/multicalibrator.py`, `iterative/classification/top_label_multicalibrator.py`, `mixins/multicalibrator.py`, `mixins/batchmvp.py`, `iterative/regression/batch_mvp.py`, `mixins/classification/top_label_multicalibrator.py`, `mixins/classification/binary_multicalibrator.py` | C36–C40, C68–C70 |
| MvpSetModel.v | `conformal/multivalid/iterative/regression/batch_mvp.py`, `conformal/classification/base.py` | C165 |
| NestedHeapModel.v | `nested_dicts.py` |  |
| NestedModel.v | `utils/nested_dicts.py`, `utils/strings.py` | C12–C15, C58 |
| NetModel.v | `model/mlp.py`, `model/linear.py`, `model/constant.py`, `model/scalar_constant.py`, `model/hyper.py`, `model/scalar_hyper.py`, `model/lenet.py`, `model/cnn.py`, `model/resnet.py`, `model/wideresnet.py` | C103–C106 |
| NoiseModel.v | `utils/random.py`, `posterior/sgmcmc/sghmc/sghmc_integrator.py`, `cyclical_sgld/cyclical_sgld_integrator.py`, `map_posterior.py`, `laplace_posterior.py`, `swag_posterior.py`, `advi_posterior.py`, `distribution/gaussian.py`, `deep_ensemble_posterior.py`, `sgmcmc_posterior.py`, `normalizing_flow_trainer.py`, `run_preliminary_map.py`, `model_manager/classification.py`, `regression.py`, `joint/base.py`, `sghmc_posterior.py`, `cyclical_sgld_posterior.py`, `prob_model/base.py` | C140–C142 |
| OneShotModel.v | `conformal/multivalid/base.py`, `one_shot/base.py`, `one_shot/multicalibrator.py`, `one_shot/classification/binary_multicalibrator.py`, `one_shot/classification/top_label_multicalibrator.py`, `mixins/classification/top_label_multicalibrator.py`, `mixins/classification/binary_multicalibrator.py` | C163 |
| OodModel.v | `mahalanobis.py`, `ddu.py` | C88–C89 |
| PlotModel.v | `plot.py` | C150–C151 |
| PredModel.v | `likelihood/classification.py`, `prob_output_layer/classification.py`, `predictive/regression.py`, `prob_output_layer/regression.py`, `predictive/classification.py`, `predictive/base.py`, `prob_output_layer/base.py` | C45–C48, C72–C73 |
| ProbitModel.v | `utils/grad.py`, `utils/probit.py`, `model_editor/probit.py` | C90–C91 |
| QuantModel.v | `jax/_src/numpy/reductions.py` |  |
| RecalModel.v | `prob_model/base.py`, `output_calib_model/base.py`, `output_calib_model/state.py`, `output_calib_model/output_calib_mixin.py` | C176 |
| RepoModel.v | `training/train_state_repository.py`, `training/mixin.py`, `prob_model/posterior/posterior_multi_state_repository.py`, `prob_model/posterior/sgmcmc/sgmcmc_posterior_state_repository.py`, `prob_model/posterior/state.py`, `training/train_state.py` | C16–C19 |
| ResumeModel.v | `prob_model/posterior/normalizing_flow/advi/advi_posterior.py`, `advi_trainer.py`, `advi_architecture.py` | C168 |
| SampModel.v | `data/loader/array_loaders.py` | C148 |
| SchedModel.v | `utils/optimizer.py`, `utils/training.py`, `utils/random.py`, `predictive/base.py` | C24, C62, C66 |
| SerModel.v | `_state.py`, `__init__.py`, `calib_model/state.py`, `utils/strings.py`, `train_state.py`, `output_calib_model/state.py`, `mixin.py`, `name_to_train_state.py`, `name_to_posterior_state.py`, `calib_mixin.py`, `output_calib_mixin.py`, `posterior_mixin.py`, `posterior/base.py`, `swag_state.py`, `sghmc_state.py`, `cyclical_sgld_state.py`, `trainer.py`, `output_calibrator.py` | C135–C136 |
| SngpModel.v | `model/utils/random_features.py`, `model/utils/spectral_norm.py`, `model/model_manager/classification.py`, `sngp_callback.py`, `sngp_posterior.py` | C84–C87 |
| SrcModel.v | `data/loader/utils.py`, `data/loader/base.py`, `array_loaders.py`, `prob_model/posterior/map/map_posterior.py`, `trainer.py`, `posterior/base.py`, `classification.py`, `regression.py`, `prob_model/base.py` | C133–C134 |
| StatModel.v | `training/trainer.py`, `prob_model/posterior/map/map_trainer.py`, `prob_model/posterior/normalizing_flow/normalizing_flow_trainer.py`, `training/output_calibrator.py`, `output_calib_model/output_calib_model_calibrator.py`, `metric/classification.py` | C121–C123 |
| SwagContModel.v | `prob_model/posterior/swag/swag_posterior.py`, `swag_state.py` | C170 |
| SwagModel.v | `prob_model/posterior/swag/swag_posterior.py`, `swag_trainer.py`, `prob_model/posterior/run_preliminary_map.py`, `trainer.py`, `training/mixin.py`, `swag_state.py` | C157 |
| TScaleModel.v | `calibration/classification/temp_scaling/base.py`, `f1_temp_scaling.py`, `bias_binary_temp_scaling.py`, `brier_binary_temp_scaling.py`, `crossentropy_binary_temp_scaling.py` | C166 |
| TempModel.v | `calibration/classification/temp_scaling/base.py`, `bias_binary_temp_scaling.py`, `brier_binary_temp_scaling.py`, `f1_temp_scaling.py`, `crossentropy_binary_temp_scaling.py`, `output_calibrator/classification.py`, `output_calibrator/regression.py` | C41–C42, C71 |
| TextModel.v | `data/dataset/huggingface_datasets.py`, `data_collator.py`, `data/loader/huggingface_loaders.py`, `hallucination/base.py` | C09–C11, C56–C57 |
| TfmHeadModel.v | `prob_model/posterior/sngp/transformers/models/modeling_flax_bert.py`, `modeling_flax_distilbert.py`, `modeling_flax_roberta.py`, `spectral_norm.py`, `model_manager/transformers/classification.py` | C172 |
| TfmModel.v | `model/utils/spectral_norm.py`, `model/mlp.py`, `model/model_manager/transformers/classification.py`, `resnet.py`, `wideresnet.py`, `modeling_flax_bert.py`, `transformers/auto_factory.py`, `modeling_flax_auto.py` | C127–C128 |
| TrainModel.v | `training/trainer.py`, `training/mixin.py` | C20–C22, C61, C64–C65 |
| TuneModel.v | `prob_model/posterior/laplace/laplace_posterior.py`, `prior/gaussian.py` | C147 |
| WholeModel.v | `prob_model/base.py`, `prob_model/predictive/base.py`, `posterior/map/map_posterior.py`, `posterior/deep_ensemble/deep_ensemble_posterior.py`, `posterior/base.py`, `data/loader/base.py`, `map_trainer.py`, `posterior_multi_state_repository.py`, `likelihood/base.py` | C160 |

Not modelled: floating-point rounding, overflow and NaN (except where a model file says so),
XLA compilation, wall-clock behaviour, logging, progress bars, plotting (`plot.py`), the numerical
contents of convolutional networks (only shapes) and of Hugging Face transformers (only loading,
key handling, splitting of text and the fields of their configuration), downloading data sets, the
tokenizers themselves, scikit-learn, optax optimizers (arbitrary
functions), flax/jax/numpy themselves (modelled by documented behaviour where needed),
statistical properties of samplers (convergence), and SageMaker job submission.

## 5. Findings

Behaviours of the pinned code that contradict its documentation, or what a user would
expect, found while modelling. Where a theorem is named it is proved about the model;
the others were found by reading while writing the model and are stated in comments.

### Data and text
* `batch_size=None` ignores `shuffle`; shuffling orders are redrawn at each pass.
* `BaseTargetsLoader.from_data_loader` returns an `IterableData`, not a loader; `sample` loops
  forever on an empty loader.
* Interposing or concatenating loaders with fewer targets than inputs misaligns or drops rows
  (`C06_missing_targets_refuted`).
* Distributed `Predictive.sample` unshards an array of shape (devices, samples, batch) as if it
  were (devices, batch) (`C08_distributed_sample_refuted`).
* Hugging Face loaders report the size of the dataset even with `drop_last`
  (`C09_size_with_drop_last_refuted`); a missing `special_tokens_mask` crashes the collator;
  `_balance_data` mutates the caller's lists.
* `check_data_loader_is_not_random` compares only the first batches (`C97_late_difference_refuted`).

### Nested dictionaries, freezing, checkpoints
* `nested_set` mutates assigned and shared sub-dictionaries (`C12_*_refuted`); `nested_update`
  treats `FrozenDict` as a leaf; equal labels break `nested_unpair` (`C13_equal_labels_refuted`).
* Strings encoded for checkpoints lose their order with more than ten entries
  (`C15_checkpoint_eleven_refuted`, `C15_long_path_refuted`).
* `get_trainable_paths` without `freeze_fun` returns the characters of keys
  (`C23_no_freeze_fun_refuted`).
* Repositories: `update` is not crash safe (`C17_update_crash_refuted`), in-memory `pull` keeps
  the state (`C16_memory_pull_keeps_refuted`), `get` with an optimizer mutates
  (`C16_memory_get_optimizer_refuted`), `put` to all members raises AttributeError
  (`C18_put_all_refuted`), reading all SGMCMC states raises NameError (`C19_get_all_refuted`);
  `extract` drops keyword arguments.

### Training
* `early_stopping_mode` cannot be set through the public fit API; `should_stop` is sticky if a
  trainer is reused (`C20_reused_trainer_refuted`); early stopping keeps the last, not the best,
  state.
* Gradient accumulation: an epoch with fewer batches than the period raises TypeError; leftover
  batches cross epochs; micro-batches reuse one key (`C61_accumulation_refuted`);
  periodic checkpoints are skipped inside a group (`C64_accumulation_refuted`); checkpoints drop the
  accumulated gradient (`C22_restored_checkpoint_refuted`); with loss scaling non-finite gradients get
  through (`C65_accumulation_refuted`).
* The warm-up schedule counts full batches only, so the rate reaches 0 before training ends
  (`C24_warmup_ends_early_refuted`); the decay mask joins path components, so "model"+"net"
  contains "ln" (`C66_mask_refuted`).
* Several devices: loss scaling is not told the axis, so half-precision gradients are not averaged
  and replicas diverge (`C111_scaled_refuted`); the returned state holds the mutable collections of
  the first device (`C112_returned_refuted`); validation metrics are averaged per device
  (`C112_rmse_refuted`); batches that are not multiples of the device count raise; TPUs never use
  the multi-device trainer; `devices=-1` ignores `disable_jit`.
* `HashableMixin`: comparing a trainer with None raises; private attributes are ignored, so a jitted
  step may be reused for an instance in a different private state (`C107_jit_refuted`).

### Conformal methods
* The set returned by the classifiers excludes the most likely classes first
  (`C33_most_likely_excluded_refuted`) although coverage holds; CV+ returns one set per fold and
  test point (`C67_one_set_per_input_refuted`).
* The jackknife methods use plain linear quantiles and miss the documented guarantee
  (`C26_small_error_refuted`, `C59/C60_documented_guarantee_refuted`); EnbPI's batch updates raise after
  the shift (`C29_batch_update_refuted`); without out-of-bag models the residual is |target|.
* Clipping breaks the long-run guarantee of adaptive conformal inference (`C31_clipping_refuted`).
* `OneDimensionalUncertaintyConformalRegressor` checks the validation array where the test array is
  meant; `CVPlus` mutates the caller's lists.
* Max-coverage fixed-precision: with one tau the negative side moves even if unsatisfiable, negative
  coverage is counted against the wrong threshold (`C35_*_refuted`).

### Multivalid calibration
* The final patch of a run that stops is not recorded (`C37_converged_refuted`); with `split=1`
  no patch is ever stored.
* Top-label rows stop summing to one (`C36_top_label_sum_refuted`); multiplicative patches can
  increase the squared error (`C39_multiplicative_refuted`); "=" buckets leave gaps in which
  `calibration_error` is blind (`C40_blind_refuted`); one-shot results depend on the other points of
  the batch (`C40_one_shot_batch_refuted`); single-class binary targets are rejected (`C70_single_label_refuted`);
  `BatchMVP.calibration_error(thresholds=None)` raises TypeError.

### Metrics, temperature scaling, predictive
* MCE is not normalised (`C43_mce_refuted`); (N,1) predictions with (N,) targets broadcast to N×N
  (`C44_mixed_shapes_refuted`); the F1 temperature may be 0 (`C41_f1_zero_refuted`).
* `variance()` uses different keys for its two parts, so the total can exceed 1/4
  (`C45_different_samples_refuted`, `C62_variance_keys_refuted`); Monte Carlo epistemic entropy
  can be negative (`C46_regression_epistemic_refuted`); `credible_set(error=0)` is one label
  (`C47_zero_error_refuted`); an output layer's `std` returns variances (`C72_std_refuted`).
* `RegressionProbOutputLayer.credible_interval` raises IndexError when formatting its message; the
  masked layer's probabilities sum to 2 − p₀.

### Likelihood and model managers
* Without an output calibration manager `outs` is unbound, and with mutable state the tuple is used
  as outputs (`C53_no_manager_refuted`, `C95_*_refuted`); `return_aux=None` raises TypeError
  (`C53_negative_default_refuted`); mini-batch scaling overweights a smaller last batch
  (`C53_unequal_batches_refuted`).
* The regression manager stores the model's mutable state as that of the variance model, assigns
  into a FrozenDict and passes a dict as flax's filter (`C77_*_refuted`).
* Kernel regression gives NaN for constant targets (`C54_constant_refuted`).

### Posterior approximations
* SGMCMC: the sampling callback counts from one, the integrator from zero
  (`C50_first_sample_refuted`); early stopping leaves samples missing (`C49_early_stop_refuted`);
  the cosine schedule grows again after its horizon; "momentum resampling" resets to zero;
  `effective_sample_size(filter_threshold=None)` divides by zero (`C75_unfiltered_refuted`).
* SWAG's mean is wrong with several steps per epoch (`C51_average_refuted`); its low-rank part
  divides by the rank.
* Laplace: tuning without `distribute` raises (`C81_tuning_local_refuted`), the regression Hessian
  may be indefinite so standard deviations are NaN (`C80_regression_refuted`).
* ADVI (and SWAG) with a freeze function ravel parameters in sorted key order and unravel in path order
  (`C83_preserved_refuted`).
* SNGP: the spectral norm is estimated from below (`C87_bound_refuted`); fitting appends callbacks to
  the shared default configuration.
* OOD detection: an unobserved class makes all scores NaN or ≤ 0 (`C88/C89_unobserved_refuted`).
* Probit: the logits are divided by 1+πv/8 without the square root and the argmax can change
  (`C90_argmax_refuted`); `memory` smaller than the number of final tokens conditions rather than
  marginalises (`C91_memory_refuted`); `top_k` indexes with output indices (`C91_top_k_refuted`).

### Calibration models
* Focal loss is infinite for out-of-range labels (`C92_out_of_range`); output calibrators with mutable state fail on the second step
  (`C94_second_step_refuted`); validation on several devices uses averaged outputs
  (`C93_device_validation_refuted`); distributed sampling of outputs counts devices
  (`C98_distributed_refuted`, `C98_devices_refuted`); the objective is not the sum of log-probabilities
  (`C98_objective_pointwise_refuted`).
* Class-dimension checks require every class to occur in the calibration data.

### Hallucination scoring and text cleaning
* The score depends on padding, hence on the other texts of a batch (`C99_padding_refuted`);
  `predict_proba` before `fit` raises AttributeError; a failed calibration leaves an object that looks fitted
  (`C101_failed_calibration`); soft groups may be empty (`C100_soft_empty_refuted`).
* `string_cleaner` is not idempotent, leaves spaces before punctuation, splits "3.14" and does not
  capitalise after "." or "?" (`C102_*_refuted`).

### Networks
* MLP dropout acts before the last hidden activation (`C103_dropout_refuted`); `DeepResidualNet` never
  uses its first activation; WideResNet ignores `activation` and yields no features for small images.

### Sources of data
* Loaders of iterators or generators are used up by reading any of their properties
  (`C133_one_shot_refuted`, `C133_input_shape_refuted`), so they never work in training, validation or
  calibration (`C134_*_one_shot_refuted`); the inputs and targets views of iterators and of reshuffling
  loaders pair different batches (`C133_views_one_shot_refuted`, `C133_views_calls_refuted`).
* An empty calibration loader silently skips calibration (`C134_empty_calibration_refuted`);
  `if calib_data_loader:` and `if validation_dataloader:` cost a full pass over the data.
* Hugging Face loaders: labels of dropped rows are counted (`C124_drop_last_labels_refuted`), data are not
  reshuffled between epochs (`C124_no_reshuffle`), uneven lengths and `max_length` break batches
  (`C125_uneven_refuted`, `C125_max_length_refuted`), tokens of long texts are lost (`C126_tokens_lost_refuted`);
  sequence classification ignores `pad_to_multiple_of`.

### Fitting, saving and resuming
* SGMCMC fits overwrite the method of the shared default `FitOptimizer`, which later fits of other
  posteriors use (`C113_default_refuted`); the integrator then moves up the gradient.
* Fitting again into the same directory with `save_every_n_steps` raises flax's InvalidCheckpointError
  (`C114_same_directory_raises`); "improved" validation checkpoints keep one file only.
* Deep ensembles cannot be continued with another storage (`C115_changed_storage_refuted`); `save_state`
  ignores its directory for SGMCMC and ensembles (`C115/C116_save_state_refuted`); SGMCMC reads stale
  samples of an earlier fit (`C116_stale_refuted`), and a rejected fit loses the samples there were
  (`C116_rejected_loses_samples_refuted`); Laplace ignores `dump_state`; `status["map"]` is lost for ensembles
  and cyclical SGLD; SGHMC ignores user callbacks, clipping and accumulation; an ensemble's preliminary
  MAP keeps MAP's optimizer.
* Checkpoints of ADVI with more than ten trainable paths come back scrambled
  (`C118_checkpoint_order_refuted`), likewise SWAG with frozen and unsorted paths (`C119_order_refuted`);
  SWAG on several devices has the wrong shapes (`C119_devices_refuted`).
* States whose class name has more than ten characters cannot be restored after they were
  restored once and trained (`C136_long_names_refuted`): a probabilistic model's calibration can be resumed once.
* Training in half precision cannot be resumed, its loss scale comes back as a dictionary
  (`C136_dynamic_scale_refuted`); output calibrator states with `mutable=None` are written but cannot be read
  (`C135_output_no_mutable_refuted`); checkpoints of calibration models carry the name of their base class
  (`C135_calib_in_posterior`), and calibration models accept posteriors' checkpoints (`C135_posterior_in_calib_refuted`).
* Monitors: `early_stopping_mode` is always "min", so training on a growing metric stops early
  (`C132_growing_metric_refuted`, `C132_calib_growing_metric_refuted`).

### Metrics during training
* Metrics of a data set are averages over batches (`C121_dataset_metric_refuted`); metrics with the same name
  overwrite each other or the loss (`C121_same_name_refuted`, `C121_named_loss_refuted`,
  `C121_shared_name_raises`); several devices average per device (`C122_devices_refuted`), and validation
  accuracy and ECE on several devices raise or are wrong (`C123_*_refuted`).

### Building models, transformers
* All models share one default prior, whose generator is that of the last model (`C129_shared_prior_refuted`);
  `ProbRegressor` with an SNGP approximator always fails with AttributeError
  (`C129_regressor_sngp_refuted`).
* Classifiers reject data in which a class is missing and can accept labels out of range
  (`C130_missing_class_refuted`, `C130_out_of_range_refuted`); regressors with mutable variables are always
  rejected (`C130_regressor_mutable_refuted`); plain managers raise TypeError on dictionary inputs
  (`C130_dict_inputs_raise`); calibration and validation data are checked after the fit only
  (`C130_calib_late_refuted`, `C130_val_late_refuted`); the variance network's dropout key is its
  parameter key (`C131_variance_key_refuted`); `ProbRegressor._check_output_dim` needs 2-D targets.
* SNGP transformers never run the power iteration of the spectral norm, so the bound does not hold
  (`C127_transformer_bound_refuted`); calling a model without parameters but with mutable
  collections overwrites its own (`C128_own_overwritten`); in training with mutable collections the manager
  does not extract the logits (`C128_logits_kept`).
* `sum(unsupported_aux)` of strings raises TypeError; `return_aux=["outputs"]` is never answered;
  `plot_2d_classification_predictions_and_uncertainty` rejects a grid where its message asks for one, and
  calls `ax.xticks`, which does not exist.

### Random keys (C137–C139)

* `Predictive.sample(rng=key)` always raises ValueError (`if not rng` of an array), and so do
  `quantile` and `credible_interval` with a key (`C138_explicit_key_refuted`).
* All batches of `Predictive.sample` use the same noise keys: rows at the same position of two
  batches of equal size get the same noise, and results depend on the batch size
  (`C138_rows_share_noise_refuted`, `C138_batching_refuted`).
* `Predictive.sample(return_aux=["outputs"])` returns an empty dictionary and stacks batches along the
  axis of the samples (`C138_auxiliary_outputs_refuted`).
* `RandomNumberGenerator.get` returns its own new state, so keys drawn from in one call can be the
  keys that the next call starts or draws from (`C139_*_refuted`).
* `_sample_outputs_loader` splits the key of a draw over devices, unlike everything else, so its
  outputs change with `distribute` even on one device (`C137_outputs_loader_devices_refuted`).

### Random keys in fits (C140–C142)
- `SGHMCPosterior.fit` and `CyclicalSGLDPosterior.fit` take the sampler's key from the generator
  before the initial parameters, and the sampler's first half key is the key that the initialisation
  gets next. A classifier whose parameters have three leaves (any number of leaves ≥ 2 with jax's
  partitionable threefry) draws the first step's noise of one leaf from the key that
  initialised its network (`C142_sampler_reuse_refuted`).
- With two parameter leaves, the first leaf's noise key is the key the second next use of the
  generator starts from (`C141_sampler_refuted`).
- `prior.sample()`, and `sample()` of ensembles and sampler posteriors without a key, draw from the
  key that becomes the generator's state; all later keys derive from it (`C141_direct_refuted`).
- `run_preliminary_map` passes `rng=rng.get()` to a `fit` that ignores it: harmless, but it
  advances the generator once more than needed (part of `preliminary_map` in the model).
- ADVI's validation loss uses one key in all epochs (`C142_flow_validation`).

### Likelihoods at fixed parameters (C143–C146)
- With an odd number of outputs, `RegressionLikelihood.mean` and `variance` return arrays of different
  widths without an error, while `log_prob` and `sample` raise ValueError (`C143_odd_widths`, `C144_odd_widths`).
- `get_calibrated_outputs`, `entropy` and `sample` calibrate all outputs at once, `mean`, `variance` and
  `log_prob` one batch at a time; a calibrator that is not row-wise gives results that disagree
  (`C143_whole_calibrator_refuted`).
- `quantile` is documented to accept a list of levels; `RegressionLikelihood.quantile` and the calibration
  model's raise TypeError, since `jnp.quantile` refuses lists (`C145_list_refuted`).
- The key of a call without `rng` is the parent of the key of the next call, and when the split into rows
  agrees with a split into two, the first row is drawn with the next call's key (`C144_calls_apart_refuted`).
- `sample(return_aux=[unknown])` raises TypeError while building its error message (`sum` of strings) (`C144_refused`).

### Tuning the prior of a Laplace posterior (C147)

* Tuning works only distributed on exactly one device: otherwise `fit` raises
  (`C147_local_refuted`, `C147_devices_refuted`, `C147_not_tuned`).  The raised error comes after
  the state was stored with the untuned prior.
* The log-variance of a diagonal prior is among the candidates but cannot be returned: if it is
  the best one, `reshape()` raises TypeError (`C147_diagonal_refuted`).
* If the posterior precision at the first candidate is not positive the score is NaN, no other
  score compares below NaN, and the first candidate is returned (`C147_nan_refuted`); draws from the
  fitted posterior are then NaN (`C147_draw`, `C147_case_nan`).
* All candidates and batches use the draws of the same key `PRNGKey(0)`; the objective is
  therefore a function of the candidate alone (`C147_chosen`).

### Samples of loaders, frozen optimizers and plots (C148–C151)

* `sample` of loaders is documented as sampling with replacement; within a pass over the loader each row
  is taken at most once (`C148_replacement_refuted`).
* `freeze_optimizer` is used nowhere in the library (trainers build their own transformation).  Its labels
  are always a FrozenDict, while parameters may be plain dictionaries, which `optax` would refuse to map
  together; the model is on leaves and does not show this.
* `plot_2d_classification_predictions_and_uncertainty` says that `grid` can replace `inputs`, but raises
  ValueError unless both axes are given too (`C150_grid_only_refuted`); `remove_ticks=True` raises
  AttributeError since axes have no `xticks` (`C150_ticks_refuted`).
* In `plot_reliability_diagram` a curve with a single accuracy is drawn against all confidences (`C151_broadcast`).

### CV+ over held-out folds (C152)

* The share of points outside their CV+ intervals can exceed `2·error` when the number of folds is small:
  `C152_twice_error_refuted` builds, for every `error < 1/(2K)`, data with more misses than `2·error·K·m`.
  The bound proved is `m + 2·ceil(error·((K-1)m - 1))` of `K·m` points, which is the bound of the CV+ paper
  (share at most `2·error` plus a term of order 1/K) up to the rounding of the code's quantiles.

### Kernel Stein discrepancy (C76)

* No finding: the kernel of `_k_0` is the Langevin Stein kernel of the inverse multiquadric kernel, and its
  sum over a chain is never negative in exact arithmetic.  In floating point the sum can still be rounded
  below zero when it is close to zero.

### Reliability diagrams of classifiers (C153)

* `compute_counts_confs_accs(plot=True)` selects the bins to show by `confs != 0`, which drops empty bins but
  also a bin all of whose confidences are zero (`C153_zero_bin_refuted`); this cannot happen for maxima of
  probability vectors.

### Whole fits (C154)

* `calib_model.Config(hyperparameters=...)` has no effect: `CalibModel._calibrate` does not pass `max_grad_norm`
  and `gradient_accumulation_steps` to `trainer.train`.  The same holds for `FitConfig.hyperparameters` in
  `SWAGPosterior.fit` (and in the fits of SGHMC and cyclical SGLD); only MAP, deep ensembles and ADVI pass them
  (`C154_hyperparameters_refuted`).
* A calibration model with mutable variables (batch norm) cannot be fitted: the first training step raises
  TypeError (`C154_mutable_refuted`, see C95).

### Whole calibrations of outputs (C155)

* A calibrator with mutable variables cannot be calibrated by more than one step, neither on given outputs nor on
  a posterior: the second training step raises AttributeError, since the first leaves a plain dictionary where the
  manager calls `unfreeze` (`C155_mutable_refuted`, `C155_ensemble_mutable_refuted`, see C94).

### BatchMVP and its loss (C156)

* BatchMVP chooses patches by their coverage error but goes on only while the pinball loss does not rise.  A patch
  of less than two grid steps may improve the coverage and raise the loss, so that the run stops at once without
  any patch (`C156_loss_down_refuted`).
* When no shift improves the coverage of the worst set, the code may still move it: with ties on both sides it
  takes the most negative of the equally good shifts, which raises the loss (`C156_stay_refuted`).

### Weights of SWAG's running averages (C157)
* The statistics are updated at every batch but with weights of the epoch number, so with B batches per epoch the
  mean after E epochs gives update i of epoch e the weight e^(B-1-i)(e+1)^i / E^B.  Of the first epoch only the
  last iterate counts (`C157_first_epoch`), and all epochs but the last share ((E-1)/E)^B of the weight
  (`C157_weights_of_epochs`): under 2% with ten batches and three epochs.  The mean is the average of the iterates
  only with one batch per epoch (`C157_one_batch`, `C157_average_refuted`).
* The configuration's clipping, accumulation and early stopping do not reach the SWAG run (`C157_is_map`).

### Early stopping of samplers (C158)
* SGHMC and cyclical SGLD hand the trainer the log joint probability as its loss (the integrators ascend), and the
  trainer's early stopping, always in mode "min", counts every increase of it as a lack of improvement: a run whose
  validation log joint rises at each epoch is stopped, and samples are missing (`C158_stopping_refuted`).  The
  "loss" of the status is for the same reason to be maximised (`C158_reports`).

### SNGP fits (C161)
* The precision matrix a fit ends with sums the features of the last epoch, each at the parameters before its own
  update, not at the fitted parameters (`C161_fit`, `C161_final_features_refuted`): the two agree when training
  does not change the features (`C161_fixed_features`), but the kernel scale of the random features is trained too.
* With momentum m the ridge has weight m^batches in the matrix after an epoch (`C161_fit`), so that the bounds of the
  variance by the prior variance (`C161_variance`) only hold without momentum.

### Laplace fits (C162)
* A freeze function that freezes all parameters makes the fit fail with a TypeError after the whole preliminary run and
  the whole pass over the training data: the empty tuple of paths counts as "no selection" when the curvature is
  computed, and as a selection when it is stored (`C162_succeeds`).
* With a DiagonalGaussianPrior and frozen parameters the fit ends well, but the prior's log-variances of all parameters
  meet the curvatures of the trainable ones: every draw and every prediction raises (`C162_frozen_diagonal_refuted`).
* A fit that continues from a Laplace state starts again from the log-variance of the prior: a tuned value is forgotten
  unless it is tuned again (`C162_again`).

### One-shot multicalibrators (C163)

- For top labels only the largest entry of a row is replaced: rows no longer sum to one (`C163_sum_refuted`) and the largest entry can move to
  another class (`C163_label_refuted`).
- Groups that are too rare are not left alone: their values are moved to the centre of their bucket, so that the squared error can grow
  (`C163_loss_refuted`).
- Which bucket a value is sent to is decided among the distinct values of the whole matrix, including those that are nobody's top label.
- `calibrate` stores the number of buckets before it can fail: after a TypeError for mismatched lengths the old patches are looked up with the
  new number of buckets (`C163_failed_refuted`).
- Labels at least the number of classes are accepted silently (`C163_range_refuted`); `apply_patches` checks no axes and raises IndexError.

### Iterative multivalid methods (C164)

- `n_buckets` is stored before the bucket types are checked: a call rejected for its bucket types makes `apply_patches` use the old patches with the
  new number of buckets (`C164_types_refuted`).
- BatchMVP stores its coverage before any other check: a rejected call changes `calibration_error` (`C164_coverage_refuted`). Test thresholds are not
  checked before the fit, so the ValueError comes from an object that has already been recalibrated (`C164_late_refuted`).
- BatchMVP with multiplicative patches raises NotImplementedError in the first round, after the earlier patches were dropped (`C164_lost_refuted`).
- Lengths of groups and values are never compared with the targets: jax clamps the indices (`C164_lengths_refuted`). Likewise test groups with fewer
  columns are read at their last column (`C164_narrow_refuted`).
- With test groups but no test values, an object without patches returns None for them (`C164_nothing_refuted`).
- `BatchMVPConformalMethod.calibration_error` accepts `None` for the thresholds by its signature, but raises TypeError (`C164_error`).
- Sets rarer than `min_prob_b` only get their error multiplied by zero before the argmax: when every frequent set is unbiased, the argmax is the first
  set even if it is rare, and its (non-zero) patch is recorded (`C164_rare_refuted`; `C164_chosen` says what holds).
- The buckets of the iterative methods have width `1/n_buckets` around centres spaced `1/(n_buckets - 1)`, so they do not cover [0,1]. With `eta` below one (the default is 0.1)
  thresholds of BatchMVP can come to lie between buckets; `calibration_error` is then zero although no label is in its conformal set and the coverage asked for is one (`C165_gap_refuted`;
  with `eta` one `C165_coverage` holds).
- `F1BinaryClassificationTemperatureScaling.fit` stores the threshold before the search: a fit that fails (threshold 0 raises ZeroDivisionError) keeps the old
  temperature with the new threshold, so predictions change (`C166_failed_refuted`).
- Temperature scaling checks `targets.dtype != int`: integer targets of another width, such as the int32 of jax arrays, are rejected as "must be an integer" (`C166_int32_refuted`).
- The Bias method never compares the lengths of probabilities and targets (`C166_lengths_refuted`); Brier broadcasts a single target (`C166_temperatures`).
- The multi-class calibrator indexes `np.eye(n)` with the targets: a target of -1 is taken as the last class (`C166_negative_refuted`).
- A deep ensemble with frozen parameters after a preliminary MAP run is trained with the optimizer of `map_fit_config`: `DeepEnsemblePosterior._init_map_state`
  replaces only the parameters of the MAP state and `_freeze_optimizer_in_state` only its optimizer state, so the learning rate of `fit_config` has no effect, and the
  step counter, mutable variables and accumulated gradient of the MAP are kept (`C167_frozen_members`, `C167_optimizer_ignored`, `C167_optimizer_refuted`). With `dump_state` in
  `map_fit_config` the state comes back without optimizer and training raises AttributeError (`C167_dumped_refuted`); with gradient accumulation in both it raises
  ValueError (`C167_accumulated_refuted`).
- Continuing a fit of ADVI with a freeze function, the vector of means is in the order of the trainable paths while the vector of log standard deviations, and both vectors after
  `ADVITrainer.on_train_start`, are in sorted order of keys. When the keys are not sorted (parameters as initialised, e.g. `kernel` before `bias` or `model` before `lik_log_var`)
  entries move between arrays even without a step (`C168_order_refuted`). A state stored with a freeze function cannot be continued without one (`C168_unfreeze_refuted`), nor with
  one that makes more arrays trainable (`C168_wider_refuted`).
- A fit of MAP that continues an earlier one starts the optimizer anew (`init_from_dict` and `_freeze_optimizer_in_state` call `optimizer.init`), so momentum and learning rate
  schedules begin again while the step counter goes on (`C169_reset_refuted`). Gradients accumulated at the end of a fit are used by a fit that continues from memory and lost when
  it continues from a checkpoint (`C169_leftover_refuted`); from memory with other trainable parameters it raises ValueError (`C169_accumulated_refuted`).
- A fit of SWAG that continues an earlier fit of SWAG starts from its last iterate, not from its mean, and forgets its statistics: mean, standard deviation and deviations are
  those of the last fit only (`C170_last_fit`, `C170_forgotten_refuted`).
- A sampler continued from the current state starts at its last sample, from a checkpoint at the end of its chain;
  the updates after the last sample are lost in the first way, and a fit stopped before all samples were kept
  cannot be continued in this way at all (`C171_storage_refuted`, `C171_stopped`).
- Transformers of SNGP whose configuration has `return_dict=False` return tuples; in training with mutable variables `HuggingFaceClassificationModelManager.apply` hands the
  tuple on instead of the features (`C172_manager`, `C172_tuple_refuted`).
- `training_step_end` writes the checkpoint of a step before it calls the callbacks, so that a run continued from it lacks what they changed (`C173_checkpoints`,
  `C173_checkpoint_refuted`). With gradient accumulation and a number of batches that the group size does not divide, callbacks documented as "called after every minibatch
  update" are called between updates and miss the last one (`C173_updates_refuted`): the loop counts batches of the epoch, the update counts steps of the fit. The key of the
  next batch is computed before the callbacks (`C173_key_refuted`).
- After a preliminary run of MAP the first fit of a deep ensemble trains its members with the optimizer of `map_fit_config` (C167), but a fit that continues it with the same
  configuration restores the members with the optimizer of `fit_config`, so that the two fits are not one longer fit even for optimizers without state (`C174_longer_refuted`).
- The callbacks of `fit_config` are the same objects for all members of a deep ensemble, and nothing resets their attributes, so that a callback that changes states and counts
  (for example one that acts once, or up to a number of steps) treats the first member differently from the others (`C175_members_refuted`).
- Calibrating a posterior again goes on from its calibration parameters (`C176_posterior`), calibrating given outputs again starts from new parameters and throws the calibrated
  ones away (`C176_outputs`, `C176_outputs_refuted`), although both methods are documented in the same words. Neither keeps the state of the optimizer (`C176_reset_refuted`).
- The docstrings of the approximators of SGHMC and cyclical SGLD count available samples with `%`, which gives 0 for whole cycles (`C177_documented_cyclical_refuted`,
  `C177_documented_sghmc_refuted`). Read as quotients, the number for cyclical SGLD is still off by up to one sample per cycle, because thinning starts again in every cycle
  (`C177_intended_refuted`); with a thinning of at least a cycle and an exploration part every fit raises ValueError (`C177_long_thinning_refuted`).
- `BatchMVP*.calibrate` documents that a number of buckets for which the calibration error falls below the tolerance is guaranteed to exist, and is searched when `n_buckets` is
  not given. There is no such search (the default is 100), and no such number need exist: with coverage 1/2 the entry of a group of odd size n is at least 1/(4 n^2) for every
  number of buckets and rounds (`C165_odd_groups`; three points: 1/36).
- Calibration models that continue from their current state keep the step counter and lose the state of the optimizer (`C178_reset_refuted`), as fits of MAP do (`C169_reset_refuted`):
  learning rate schedules start again, and names of checkpoints go on.
