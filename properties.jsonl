{"id": "C01", "title": "Batching an array neither loses, duplicates nor reorders rows", "statement": "Iterating a loader built with DataLoader.from_array_data / InputsLoader.from_array_inputs / TargetsLoader.from_array_targets with a batch size b>=1 and no shuffling yields batches whose concatenation is the original array, every batch except possibly the last has exactly b rows, the last has between 1 and b rows (an empty array yields one empty batch), and inputs and targets of one batch come from the same rows.", "quantifier": "every array content and length, every batch size >= 1, with or without prefetching", "why_tests_cant": "Tests try a few lengths and batch sizes; the claim is about all length/batch-size combinations including non-divisible ones and the empty array.", "anchors": ["fortuna/data/loader/utils.py:IterableData.from_array_data", "fortuna/data/loader/utils.py:IterableData.from_batch_array_data", "fortuna/data/loader/utils.py:PrefetchedGenerator", "fortuna/data/loader/base.py"]}
{"id": "C02", "title": "Shuffling permutes rows, keeps input/target pairs together, and is the same on every pass", "statement": "With shuffle=True and a batch size, one pass over the loader yields the rows of data in the order of a permutation that is the same for inputs and targets; hence the multiset of (input, target) pairs is that of the data, and every pass yields the same sequence. With batch_size=None shuffle is silently ignored.", "quantifier": "every data set, batch size and every permutation the random generator may return", "why_tests_cant": "A test sees one permutation for one seed; the pairing must survive every permutation.", "anchors": ["fortuna/data/loader/utils.py:IterableData.from_batch_array_data"]}
{"id": "C03", "title": "Array round trip through loaders", "statement": "Converting an unshuffled array loader back with to_array_data / to_array_inputs / to_array_targets returns the original arrays; the inputs-only and targets-only views of any loader align batch by batch with the original loader and re-zipping them reproduces it.", "quantifier": "every data set, every batch size, every loader", "why_tests_cant": "Only a universally quantified statement rules out an off-by-one at some length.", "anchors": ["fortuna/data/loader/array_loaders.py", "fortuna/data/loader/base.py", "fortuna/data/loader/utils.py:IterableData.data_loader_to_inputs_iterable"]}
{"id": "C04", "title": "split(n) partitions a loader at row n", "statement": "DataLoader.split(n), InputsLoader.split(n) and TargetsLoader.split(n) return two loaders whose rows, concatenated, are exactly the rows of the original; the first holds exactly min(n,size) rows; neither yields an empty batch when no original batch is empty; passes can be repeated with the same result.", "quantifier": "every loader (any batch sizes, including ragged), every n >= 0", "why_tests_cant": "Split points relative to batch boundaries form an unbounded family of cases.", "anchors": ["fortuna/data/loader/array_loaders.py:DataLoader.split", "fortuna/data/loader/array_loaders.py:InputsLoader.split", "fortuna/data/loader/array_loaders.py:TargetsLoader.split", "fortuna/data/loader/utils.py:IterableData.transform_data_loader"]}
{"id": "C05", "title": "chop(d) yields only batches divisible by d and drops the minimum", "statement": "chop(d) on a data/inputs/targets loader yields, in order, for each non-empty batch its longest prefix whose length is a positive multiple of d (and nothing if the batch is shorter than d; an empty batch is passed through); so every batch is divisible by d, fewer than d rows per batch are dropped, chop is idempotent and leaves already divisible batches unchanged.", "quantifier": "every loader and every divisor d >= 1", "why_tests_cant": "Divisibility corner cases range over all batch sizes and divisors.", "anchors": ["fortuna/data/loader/array_loaders.py:DataLoader.chop", "fortuna/data/loader/array_loaders.py:InputsLoader.chop", "fortuna/data/loader/array_loaders.py:TargetsLoader.chop"]}
{"id": "C06", "title": "Merging several input loaders into one labelled loader keeps every row with its label", "statement": "DataLoader.from_inputs_loaders with how='concatenate' or 'interpose' yields every row of every given loader exactly once, each labelled with the target given for that loader, in loader order within each round; an unknown `how` is rejected with an error; with as many targets as loaders nothing is dropped.", "quantifier": "every list of loaders with any, possibly different, numbers of batches", "why_tests_cant": "Unequal loader lengths are where interleaving goes wrong; they form an infinite family.", "anchors": ["fortuna/data/loader/utils.py:IterableData.inputs_loaders_to_batch_iterable", "fortuna/data/loader/base.py:BaseDataLoaderABC"]}
{"id": "C07", "title": "Loader transformations restart from the initial status on each pass and prefetching is transparent", "statement": "A loader produced by a stateful transformation yields the same sequence on every pass (the status is reset), never yields empty batches, never yields inputs and targets of different length (it raises instead), and prefetch=True yields exactly the sequence prefetch=False yields.", "quantifier": "every loader, every transformation function and initial status, every number of passes", "why_tests_cant": "Statefulness bugs show on the second pass, for specific histories only.", "anchors": ["fortuna/data/loader/utils.py:IterableData.transform_data_loader", "fortuna/data/loader/utils.py:IterableData.transform_inputs_or_targets_loader", "fortuna/data/loader/utils.py:PrefetchedGenerator"]}
{"id": "C08", "title": "Batching and device sharding do not change per-row results", "statement": "For a function that treats rows independently, evaluating it batch by batch over a loader and concatenating equals evaluating it on all the rows at once; reshaping a batch over d devices and merging back is the identity, and the reshape is rejected exactly when d does not divide the batch size.", "quantifier": "every row-wise function, every batching of the same rows, every number of devices >= 1", "why_tests_cant": "Equality must hold for all ways of cutting the same data into batches.", "anchors": ["fortuna/likelihood/base.py:Likelihood", "fortuna/prob_model/predictive/base.py:Predictive", "fortuna/data/loader/base.py:DeviceDimensionAugmentedLoader"]}
{"id": "C09", "title": "Indexed dataset batching visits every row at most once", "statement": "The batches of indices formed for a Hugging Face dataset are consecutive slices of a permutation of 0..n-1: without drop_last each index appears exactly once; with drop_last each batch has exactly batch_size indices and only n mod batch_size indices are dropped.", "quantifier": "every dataset size, batch size >= 1, permutation", "why_tests_cant": "Ranges over all sizes and permutations.", "anchors": ["fortuna/data/dataset/huggingface_datasets.py"]}
{"id": "C10", "title": "Masked-language-model chunking keeps tokens in order and drops only a short tail", "statement": "Tokenising with concatenation produces chunks of exactly max_length tokens each, whose concatenation is a prefix of the concatenated input; always fewer than max_length tokens are dropped, at the end (so a total shorter than max_length yields no chunk at all).", "quantifier": "every list of token sequences, every max_length >= 1", "why_tests_cant": "Ranges over all lengths.", "anchors": ["fortuna/data/dataset/huggingface_datasets.py:HuggingFaceMaskedLMDataset"]}
{"id": "C11", "title": "Token masking: labels mark exactly the corrupted positions", "statement": "After random masking for masked language modelling, a label is the ignore index -100 exactly at positions that were not selected, carries the original token at selected positions, special tokens are never selected, and unselected input tokens are unchanged; each selected token is replaced by the mask token, a random token, or left unchanged.", "quantifier": "every token sequence, every special-token mask and every outcome of the random draws", "why_tests_cant": "Random draws: a test samples a few outcomes only.", "anchors": ["fortuna/data/dataset/data_collator.py"]}
{"id": "C12", "title": "Nested dictionary assignment: get after set, and nothing else changes", "statement": "After setting objects at given key paths, reading a path that was set returns the object (the last one set on that path), any path that neither extends nor prefixes a set path reads as before, the input dictionary is not modified, missing paths raise unless creation is allowed.", "quantifier": "every nested dictionary, every list of key paths and objects", "why_tests_cant": "Dictionaries of arbitrary depth and aliasing between key paths.", "anchors": ["fortuna/utils/nested_dicts.py:nested_set", "fortuna/utils/nested_dicts.py:nested_get"]}
{"id": "C13", "title": "Pairing and unpairing nested parameters are inverse", "statement": "Unpairing a dictionary obtained by pairing objects at pairwise independent key paths returns the original dictionary as first component, and a second dictionary which holds at each path the paired object and nothing else.", "quantifier": "every nested dictionary, every tuple of pairwise incomparable existing paths, all objects, distinct labels", "why_tests_cant": "Depth and number of paths are unbounded.", "anchors": ["fortuna/utils/nested_dicts.py:nested_pair", "fortuna/utils/nested_dicts.py:nested_unpair"]}
{"id": "C14", "title": "Nested update takes new values and keeps the rest", "statement": "nested_update(d, u1, ..., uk) reads, at each path that leads to a non-dictionary value in the last updating dictionary, that value, keeps every path of d not touched by the updates, and updating by the empty dictionary is the identity.", "quantifier": "every dictionary and every sequence of updates", "why_tests_cant": "Recursion depth is unbounded.", "anchors": ["fortuna/utils/nested_dicts.py:nested_update"]}
{"id": "C15", "title": "Key paths survive the checkpoint encoding", "statement": "Encoding a tuple of key paths into arrays and decoding the in-memory result gives the same key paths; decoding what a checkpoint returns (dictionaries with decimal string keys) gives the same key paths in the same order when there are at most ten paths of at most ten keys each, and otherwise the order can change.", "quantifier": "every tuple of key paths over arbitrary strings", "why_tests_cant": "The number of paths is unbounded; the lexicographic re-ordering appears only from eleven on.", "anchors": ["fortuna/utils/strings.py"]}
{"id": "C16", "title": "State repositories: what was put is what you get", "statement": "After putting a state, getting it returns that state (without its accumulated gradient when on disk), whether kept in memory or in a checkpoint directory and whatever was put before; getting from a repository which never received a state raises; getting never changes what later gets return (without optimizer).", "quantifier": "every history of put/get/update/pull operations", "why_tests_cant": "Histories of any length.", "anchors": ["fortuna/training/train_state_repository.py:TrainStateRepository", "fortuna/training/mixin.py:WithCheckpointingMixin"]}
{"id": "C17", "title": "Updating a stored state changes exactly the given variables, but is not crash safe on disk", "statement": "update(variables) makes the stored state equal to the previous one with exactly the given variables replaced. On disk it removes the old checkpoint before writing the new one: a crash in between leaves no checkpoint at all (proved as a refutation of crash atomicity), whereas a crash during put alone leaves the old or the new state readable.", "quantifier": "every state, every set of variables, every crash point", "why_tests_cant": "Crash points cannot be enumerated by unit tests.", "anchors": ["fortuna/training/train_state_repository.py:TrainStateRepository.update", "fortuna/training/train_state_repository.py:TrainStateRepository.pull"]}
{"id": "C18", "title": "Ensemble members are stored independently", "statement": "In a multi-state repository, putting or updating member i leaves every other member unchanged, getting all members returns them in index order, for every interleaving of operations on members.", "quantifier": "every size, every history of operations", "why_tests_cant": "Interleavings of any length.", "anchors": ["fortuna/prob_model/posterior/posterior_multi_state_repository.py:PosteriorMultiStateRepository"]}
{"id": "C19", "title": "Partial-parameter storage of MCMC samples loses nothing", "statement": "With which_params given, a state put at index i and read back has exactly the put values at the given key paths and the shared full parameters elsewhere; if the sample agrees with the shared parameters outside the given paths, it is read back unchanged.", "quantifier": "every parameter dictionary, every tuple of independent key paths, every index", "why_tests_cant": "Dictionaries of arbitrary shape.", "anchors": ["fortuna/prob_model/posterior/sgmcmc/sgmcmc_posterior_state_repository.py:SGMCMCPosteriorStateRepository"]}
{"id": "C20", "title": "Early stopping stops exactly after `patience` epochs without improvement", "statement": "With early stopping active, training stops at the first epoch at which the monitored metric has failed to improve on the best value so far by more than min_delta for more than `patience` consecutive validated epochs, never before, and never when early stopping is inactive (patience <= 0 or unknown mode); mode 'max' behaves as 'min' on the negated metric.", "quantifier": "every sequence of metric values, every patience and min_delta", "why_tests_cant": "Histories of arbitrary length.", "anchors": ["fortuna/training/mixin.py:WithEarlyStoppingMixin", "fortuna/training/trainer.py:TrainerABC.train"]}
{"id": "C21", "title": "Training runs every epoch over every batch unless stopped", "statement": "Training without early stopping performs exactly n_epochs epochs, each visiting every batch once in order, reports one status entry per epoch (validation entries only on validation epochs), and with early stopping the epochs run form a prefix.", "quantifier": "every data loader, number of epochs, validation frequency", "why_tests_cant": "Loop counts are unbounded.", "anchors": ["fortuna/training/trainer.py:TrainerABC"]}
{"id": "C22", "title": "Gradient accumulation applies the mean of k consecutive gradients", "statement": "With gradient_accumulation_steps=k, parameters change only at every k-th micro-batch, and then by one optimizer update with the arithmetic mean of exactly the last k micro-batch gradients; between updates parameters and optimizer state are untouched.", "quantifier": "every k >= 1, every gradient sequence, every optimizer", "why_tests_cant": "Sequences of arbitrary length and every optimizer function.", "anchors": ["fortuna/training/trainer.py:TrainerABC"]}
{"id": "C23", "title": "Frozen parameters never change", "statement": "When training with a freeze function, every parameter labelled frozen has after training exactly the value it had before, and splitting into trainable/frozen and merging back is the identity.", "quantifier": "every parameter tree, every freeze labelling, every optimizer and number of steps", "why_tests_cant": "Arbitrary trees and histories.", "anchors": ["fortuna/training/trainer.py:TrainerABC.on_train_start", "fortuna/utils/freeze.py"]}
{"id": "C24", "title": "Learning-rate schedules and gradient clipping respect their bounds", "statement": "The warm-up/linear schedule is in [0, lr] (times), reaches lr at the end of the warm-up and 0 at the end; the stepped schedule returns the value of the interval containing the step; clipping by value puts every entry in [-c,c] and by norm gives norm at most the maximum, leaving small gradients (nearly) unchanged.", "quantifier": "every step, every configuration, every gradient", "why_tests_cant": "Quantifies over all steps and gradients.", "anchors": ["fortuna/utils/optimizer.py", "fortuna/utils/training.py"]}
{"id": "C25", "title": "Split-conformal quantile covers the validation scores", "statement": "The quantile computed by the quantile and one-dimensional-uncertainty conformal regressors is at least as large as k=ceil((n+1)(1-error)) of the n validation scores when k<=n (all of them when k>=n); hence the conformal interval built for the validation points themselves covers at least k of them. error outside [0,1] is rejected.", "quantifier": "every validation set, every error in [0,1]", "why_tests_cant": "Must hold for all real-valued score vectors, ties included.", "anchors": ["fortuna/conformal/regression/quantile.py:QuantileConformalRegressor", "fortuna/conformal/regression/onedim_uncertainty.py:OneDimensionalUncertaintyConformalRegressor"]}
{"id": "C26", "title": "Exact finite-sample coverage of split-conformal intervals over hold-outs", "statement": "Take any n+1 points and hold out each in turn as the test point while calibrating the quantile (or one-dimensional-uncertainty) conformal regressor on the other n: with k=ceil((n+1)(1-error)), the conformal interval covers the held-out target for at least min(k,n) of the n+1 points, and (when scores are distinct) for at most k+1. So for exchangeable data the coverage is at least 1-error whenever k<=n; when k=n+1 (error < 1/(n+1)) the code returns the largest score instead of an infinite interval and the guarantee fails (refutation).", "quantifier": "every data set of n+1 points (n >= 1, ties allowed), every error in [0,1]", "why_tests_cant": "A combinatorial statement over all score vectors and all hold-outs.", "anchors": ["fortuna/conformal/regression/quantile.py:QuantileConformalRegressor.quantile", "fortuna/conformal/regression/onedim_uncertainty.py:OneDimensionalUncertaintyConformalRegressor.quantile"]}
{"id": "C27", "title": "Conformal intervals are nested in the error level", "statement": "For split-conformal, jackknife+, jackknife-minmax and CV+ regressors, a smaller error gives an interval that contains the interval for a larger error, on the same data; lower bound <= upper bound holds for jackknife-minmax always and for jackknife+ when error <= 1/2 (beyond 1/2 the jackknife+ bounds can cross).", "quantifier": "every data set, all pairs of error levels", "why_tests_cant": "Monotonicity relates all pairs of inputs.", "anchors": ["fortuna/conformal/regression/quantile.py", "fortuna/conformal/regression/jackknifeplus.py", "fortuna/conformal/regression/jackknife_minmax.py", "fortuna/conformal/regression/cvplus.py"]}
{"id": "C28", "title": "Jackknife-minmax contains jackknife+; CV+ is jackknife+ on the pooled folds", "statement": "On the same data and error, the jackknife-minmax interval contains the jackknife+ interval. CV+ on folds of any size equals jackknife+ on the pooled data where every point uses the test outputs of the model of its own fold; with folds of size one it is jackknife+ itself. CV+ accepts folds exactly when outputs and targets of every fold have equal length, else ValueError.", "quantifier": "every data set, partition into folds and error level", "why_tests_cant": "Relation between two algorithms on all inputs.", "anchors": ["fortuna/conformal/regression/jackknifeplus.py", "fortuna/conformal/regression/jackknife_minmax.py", "fortuna/conformal/regression/cvplus.py"]}
{"id": "C29", "title": "EnbPI intervals are centred, and residual updates form a sliding window", "statement": "The residual of a training point is its distance from the aggregated outputs of the bootstrap models that did not see it (from zero if all did), and interval u is the quantile over training points of these models' aggregated test outputs, plus and minus the quantile of the residuals; bootstrap indices out of range and arrays of other sizes raise ValueError. Every EnbPI interval is symmetric about its aggregated prediction with a common non-negative half-width; residuals and intervals depend on a bootstrap model's training outputs only at points outside its sample; each single-point residual update keeps the number of residuals, drops the oldest and appends the newest absolute error, so after any sequence of updates the residuals are the last T of the stream. Updates with more than one point (documented as supported) raise ValueError after the caller's residuals have already been shifted (refutation).", "quantifier": "every data set, every sequence of updates", "why_tests_cant": "Unbounded update histories.", "anchors": ["fortuna/conformal/regression/enbpi.py:EnbPI"]}
{"id": "C30", "title": "Adaptive conformal inference keeps the error level in [0,1] and moves it in the right direction", "statement": "Every update_error returns a value in [0,1]; without weights an uncovered target never increases it, a covered one never decreases it, and one update changes it by at most gamma (with weights: gamma times the tolerated weight sum); non-positive gamma, weights without history (or conversely), and invalid weights or history are rejected with ValueError and everything else is accepted.", "quantifier": "every history of outcomes, every gamma > 0, target error in [0,1]", "why_tests_cant": "Histories of arbitrary length.", "anchors": ["fortuna/conformal/regression/adaptive_conformal_regressor.py", "fortuna/conformal/classification/adaptive_conformal_classifier.py"]}
{"id": "C31", "title": "Adaptive conformal inference: long-run miscoverage tends to the target unless clipped", "statement": "For any sequence of outcomes, if no update was clipped then the empirical miscoverage over T steps differs from the target by at most 1/(gamma T); if no update was clipped at 0 then there are at most target*T+1/gamma misses, if none was clipped at 1 at least target*T-1/gamma. The clipping breaks the guarantee of the algorithm: for every gamma and target <= 1/2 there are runs of every length in which half of the targets are missed although a miss never happens at error level 0 (refutation).", "quantifier": "every sequence of outcomes of every length", "why_tests_cant": "Asymptotic statement over all sequences.", "anchors": ["fortuna/conformal/regression/adaptive_conformal_regressor.py:AdaptiveConformalRegressor.update_error"]}
{"id": "C32", "title": "Conformal classification sets: membership rule, order and nesting", "statement": "A label is in the returned conformal set exactly when fewer than (1-error)(n+1) validation scores strictly exceed its score; sets are returned in the order of the inputs with labels ascending and without repetition; a smaller error never removes a label; error such that (1-error)(n+1) <= 0 gives empty sets.", "quantifier": "every validation score vector, every test score matrix, every error", "why_tests_cant": "All score matrices, all group sizes.", "anchors": ["fortuna/conformal/classification/base.py:SplitConformalClassifier"]}
{"id": "C33", "title": "Conformal classification sets cover, but are inverted: conforming labels are excluded before non-conforming ones", "statement": "Calibrating on all other points of a data set, the held-out label is in its set for at least a fraction 1-error of the points (finite-sample coverage under exchangeability). However a user expects that if a label is in the set, so is every label with a smaller (more conforming) score. The code satisfies the reverse closure: sets are upward closed in the score. With APS scores the least likely label is always in the set, and the most likely one can be excluded (counterexample).", "quantifier": "every score matrix and data set; the refutation exhibits one", "why_tests_cant": "Unit tests on random data check only types and lengths.", "anchors": ["fortuna/conformal/classification/base.py:SplitConformalClassifier", "fortuna/conformal/classification/adaptive_prediction.py", "fortuna/conformal/classification/simple_prediction.py"]}
{"id": "C34", "title": "APS and simple scores are valid", "statement": "The adaptive-prediction score of a label is the total probability of the labels ranked at least as high (sorted by decreasing probability), so it is between the label's probability and 1 for a probability vector, and it is monotone: a less probable label never has a smaller score. The simple score is 1 minus the probability, in [0,1].", "quantifier": "every probability matrix and every target", "why_tests_cant": "All probability vectors with ties.", "anchors": ["fortuna/conformal/classification/adaptive_prediction.py", "fortuna/conformal/classification/simple_prediction.py"]}
{"id": "C35", "title": "Maximum coverage at fixed precision: the precision guarantee holds on calibration data", "statement": "After calibrate, if any pair of grid temperatures meets the precision thresholds (plus margin) on the calibration data with positive coverage then the chosen ones meet them and have maximal coverage among the grid; if none does, probabilities are returned unchanged. Calibrated probabilities remain in [0,1] and never cross 0.5 from below.", "quantifier": "every calibration set, thresholds, margins, grid sizes", "why_tests_cant": "All data sets; the guarantee is an argmax property.", "anchors": ["fortuna/conformal/classification/maxcovfixprec_binary_classfication.py:MaxCoverageFixedPrecisionBinaryClassificationCalibrator"]}
{"id": "C36", "title": "Multivalid calibrated values stay in [0,1] and only the selected group/bucket moves", "statement": "Every patch leaves values outside its group-and-bucket untouched and puts the others in [0,1]; after any sequence of patches values in [0,1] remain in [0,1].", "quantifier": "every patch sequence, every group matrix, every initial values", "why_tests_cant": "Arbitrary long patch sequences.", "anchors": ["fortuna/conformal/multivalid/iterative/base.py:IterativeMultivalidMethod"]}
{"id": "C37", "title": "Replaying the recorded patches reproduces calibration", "statement": "Applying the stored patches to the values seen during calibration reproduces the values the calibration loop had after its last recorded patch; applying to a concatenation of batches equals concatenating the applications; no patches means identity. The final patch of a converged run is not recorded (finding).", "quantifier": "every data set, configuration and number of rounds", "why_tests_cant": "Loop of data-dependent length.", "anchors": ["fortuna/conformal/multivalid/iterative/base.py:IterativeMultivalidMethod.calibrate", "fortuna/conformal/multivalid/iterative/base.py:IterativeMultivalidMethod.apply_patches"]}
{"id": "C38", "title": "Multivalid calibration terminates within n_rounds with non-increasing loss", "statement": "calibrate records at most n_rounds patches, the losses reported on the validation split never increase over recorded patches and n_rounds in the status equals the number of recorded patches. The reported losses are those of the validation values after each accepted patch, followed at most by that of the rejected one; the loss is the sum of squared errors for one-dimensional multicalibration, the mean squared error for top-label multicalibration and the mean pinball loss for BatchMVP.", "quantifier": "every data set and configuration", "why_tests_cant": "Data-dependent loop.", "anchors": ["fortuna/conformal/multivalid/iterative/base.py:IterativeMultivalidMethod.calibrate"]}
{"id": "C39", "title": "A multicalibration patch removes the bias of its group and bucket", "statement": "If no value is clipped and eta=1, after an additive multicalibrator patch the mean of the patched values over the selected group/bucket equals the mean score over it, and the squared error over the calibration data does not increase; with eta in [0,1] the squared error does not increase either.", "quantifier": "every data set, group, bucket", "why_tests_cant": "Universally quantified algebraic law.", "anchors": ["fortuna/conformal/multivalid/iterative/multicalibrator.py", "fortuna/conformal/multivalid/mixins/multicalibrator.py"]}
{"id": "C40", "title": "Buckets do not tile [0,1]; calibration error is per-group; one-shot calibration uses the nearest bucket", "statement": "The equality buckets (centres linspace(0,1,n), half-width 1/(2n), strict) are disjoint but leave gaps for every n >= 2: midpoints between centres are in no bucket, and calibration_error misses points lying there. The reported calibration error of a group is the sum over buckets of the squared total bias over the number of points in the bucket, divided by the size of the group. One-shot apply_patches gives every value the patch of the bucket nearest to the largest value of the batch within half a bucket of it; results lie in [0,1] when scores do. The result for a value can therefore depend on the other values of the batch (finding).", "quantifier": "every number of buckets >= 2, every values and scores", "why_tests_cant": "Measure-small gaps are not hit by random tests; the rule involves arbitrary batches.", "anchors": ["fortuna/conformal/multivalid/base.py", "fortuna/conformal/multivalid/iterative/base.py", "fortuna/conformal/multivalid/one_shot/base.py"]}
{"id": "C41", "title": "Binary temperature scaling: range, order preservation and optimality", "statement": "Calibrated probabilities are p/t clipped to [0,1], one per input, and preserve the order of the inputs for a positive temperature; temperature 1 changes nothing. The mean-bias temperature makes the mean of the unclipped scaled probabilities equal to the mean target, and after clipping the mean is at most the mean target, equal exactly when no probability exceeds the temperature. The Brier temperature minimises the unclipped squared error over all non-zero temperatures, and calibrating never increases the Brier score on the calibration data. Both are positive numbers when some positively labelled point has positive probability; without a positive target there is none. The F1 loss is minus the F1 score of the thresholded probabilities, its fitted temperature beats every grid point, and for positive temperature the predictions are those it was fitted for; a fitted temperature of 0 breaks this (refutation). The cross-entropy loss is non-negative and the fitted temperature beats every grid point.", "quantifier": "every probability vector, 0/1 target vector and threshold in (0,1]; every local search that never worsens the loss", "why_tests_cant": "Optimality over all reals.", "anchors": ["fortuna/calibration/binary_classification/temp_scaling"]}
{"id": "C42", "title": "Multi-class temperature scaling never changes the predicted class", "statement": "For every temperature > 0 the calibrated probabilities are positive, sum to one, and are ordered as the uncalibrated ones, so the first most probable class is unchanged; a negative temperature reverses the order. Temperature 1 changes nothing, scaling twice is scaling by the product, and a larger temperature never raises the largest probability. The loss is the negative log-likelihood of the calibrated probabilities, is non-negative, and the fitted temperature beats every grid point.", "quantifier": "every probability vector with positive entries, every temperature > 0, every data set", "why_tests_cant": "All real vectors.", "anchors": ["fortuna/calibration/classification/temp_scaling/base.py", "fortuna/output_calibrator/classification.py"]}
{"id": "C43", "title": "Calibration error metrics are well-defined", "statement": "The confidence bins cover each prediction at most once and exactly once when confidences lie in (-inf,1], so counts sum to the number of points; the expected calibration error is in [0,1], is 0 iff confidence equals accuracy in each bin, is at least the overall gap between confidence and accuracy, and does not depend on the order of the points; the maximum calibration error as coded is not normalised and can exceed 1 (refutation). The Brier score of probability vectors is in [0,2], 0 exactly for one-hot correct vectors, and proper: among constant predictions the label frequencies minimise it.", "quantifier": "every prediction, confidence and target vector", "why_tests_cant": "All vectors and ties on bin edges.", "anchors": ["fortuna/metric/classification.py"]}
{"id": "C44", "title": "Regression metrics: identities and interval coverage", "statement": "Root mean squared (absolute) error squared is the mean squared (absolute) error; all errors are non-negative, zero iff predictions equal targets, and the squared mean absolute error is at most dimension times the mean squared error. One-dimensional inputs are rejected; two-dimensional predictions with one-dimensional targets are silently broadcast to all pairs (refutation of the pairing). Prediction interval coverage probability is in [0,1], equals 1 iff all targets are inside, and never decreases when intervals widen.", "quantifier": "every prediction, target and interval vectors", "why_tests_cant": "All real vectors.", "anchors": ["fortuna/metric/regression.py", "fortuna/conformal/regression/base.py"]}
{"id": "C45", "title": "Predictive variance is aleatoric plus epistemic and both are non-negative", "statement": "The predictive variance is the sum of the aleatoric and epistemic variances; the epistemic variance (mean of squares minus square of mean, clipped at 0) equals the population variance of the ensemble means and is 0 iff they agree; clipping never triggers in exact arithmetic.", "quantifier": "every ensemble of means and variances", "why_tests_cant": "All ensembles, all sizes.", "anchors": ["fortuna/prob_model/predictive/base.py:Predictive"]}
{"id": "C46", "title": "Predictive entropy splits into aleatoric and epistemic parts, epistemic between 0 and log n", "statement": "For the same ensemble, the classification predictive entropy is the Shannon entropy of the averaged probabilities, the aleatoric entropy is the average of the members' entropies, and the former is the latter plus the epistemic entropy; the epistemic entropy lies in [0, ln n_posterior_samples] and is 0 exactly when the members agree, and the entropy is at most ln n_classes. The predictive log-probability is the log of the averaged likelihood, at least the averaged log-likelihood and within the range of the members. The Monte-Carlo regression entropies add up as well, but the epistemic estimate can be negative.", "quantifier": "every ensemble of outputs, every number of samples and classes", "why_tests_cant": "Jensen inequality over all ensembles.", "anchors": ["fortuna/prob_model/predictive/classification.py:ClassificationPredictive"]}
{"id": "C47", "title": "Credible sets are the smallest top-probability sets reaching the mass", "statement": "For an error at which the level 1-error is below the total probability, the credible set of an input consists of its most probable labels in decreasing order, its mass exceeds 1-error, and no other set of labels with such a mass is smaller; a smaller error only appends labels. A level that cannot be exceeded (error = 0) yields just the top label, so coverage fails there (refutation).", "quantifier": "every probability vector and error", "why_tests_cant": "All vectors including ties.", "anchors": ["fortuna/prob_model/predictive/classification.py:ClassificationPredictive.credible_set"]}
{"id": "C48", "title": "Bayesian conformal sets are nested in error and membership is by weighted rank", "statement": "A label is in the conformal set exactly when its importance-weighted rank among training points plus itself exceeds error*(n+1); error=0 (or negative) gives all labels, error >= 1 gives none, and a larger error never adds a label.", "quantifier": "every ensemble log-probabilities and error", "why_tests_cant": "All real inputs.", "anchors": ["fortuna/prob_model/predictive/classification.py:ClassificationPredictive.conformal_set"]}
{"id": "C49", "title": "MCMC sampling stores exactly the requested samples", "statement": "With an accepted configuration (burn-in, thinning, epochs, steps) a SGHMC/SGLD run stores exactly n_samples states at indices 0..n_samples-1, each written once, in order, the j-th at step burnin + (j+1)*thinning; a configuration that cannot produce n_samples is rejected before training.", "quantifier": "every burn-in, thinning, number of steps and samples", "why_tests_cant": "All integer configurations.", "anchors": ["fortuna/prob_model/posterior/sgmcmc/sghmc/sghmc_callback.py", "fortuna/prob_model/posterior/sgmcmc/sgmcmc_sampling_callback.py"]}
{"id": "C50", "title": "Cyclical SGLD stores samples only in the sampling phase", "statement": "With an accepted configuration a cyclical SGLD run stores exactly n_samples states, in order, at steps in the sampling part of the cycle and multiples of the thinning; the user also expects each stored state to come from a sampling-phase update, but the phase test of the integrator is one step behind that of the callback (refutation).", "quantifier": "every cycle length, exploration ratio, thinning, steps", "why_tests_cant": "All integer configurations.", "anchors": ["fortuna/prob_model/posterior/sgmcmc/cyclical_sgld/cyclical_sgld_callback.py", "fortuna/prob_model/posterior/sgmcmc/cyclical_sgld/cyclical_sgld_integrator.py"]}
{"id": "C51", "title": "SWAG moments are averages of the visited parameters", "statement": "With one update per epoch, the stored mean and second moment are the arithmetic means of the parameters (and squares) at all updates so far, and the variance is their population variance; for every sequence of epochs the mean stays within the range of the visited parameters and clipping the variance at 0 has no effect; after more than rank updates the deviation matrix has exactly rank columns, the latest deviations from the running mean; with several updates per epoch the mean is not the average of the iterates (refutation). A posterior sample is normal around the mean with variance std^2/2 + (sum of squared deviations)/(2 rank).", "quantifier": "every sequence of parameter iterates, every rank >= 2", "why_tests_cant": "Sequences of every length.", "anchors": ["fortuna/prob_model/posterior/swag/swag_trainer.py", "fortuna/prob_model/posterior/swag/swag_posterior.py"]}
{"id": "C52", "title": "MCMC preconditioners and step schedules keep their bounds", "statement": "RMSprop estimates stay non-negative for every gradient history, multiplication by the square-root preconditioner and its inverse cancel, applying the inverse square root twice is applying the inverse; constant, cosine, polynomial and cyclical schedules stay in [0, initial step size] and the cyclical one is periodic. The estimates start at zero and are not corrected for it: after n equal gradients the estimate is the squared gradient times 1 - factor^n.", "quantifier": "every gradient history, every step", "why_tests_cant": "Histories of arbitrary length.", "anchors": ["fortuna/prob_model/posterior/sgmcmc/sgmcmc_preconditioner.py", "fortuna/prob_model/posterior/sgmcmc/sgmcmc_step_schedule.py"]}
{"id": "C53", "title": "Mini-batch log joint probability is scaled to the full data and unbiased over an epoch", "statement": "The batched log joint probability is the sum of the batch log-likelihoods scaled by n_data/batch_size; with batches of equal size covering the data once, its average over the batches is the full-data log-likelihood; the log joint is log-likelihood plus log-prior.", "quantifier": "every data set, every equal-size batching", "why_tests_cant": "All batchings.", "anchors": ["fortuna/likelihood/base.py:Likelihood", "fortuna/prob_model/joint/base.py"]}
{"id": "C54", "title": "Nadaraya-Watson predictions stay within the range of the training targets", "statement": "For positive kernel weights, the prediction (including standardisation and de-standardisation) equals the kernel-weighted mean of the targets, so it lies between the smallest and largest target; constant targets make the standardisation divide by zero (finding).", "quantifier": "every training set, query and positive kernel", "why_tests_cant": "All real inputs.", "anchors": ["fortuna/kernel_regression/nadaraya_watson.py"]}
{"id": "C55", "title": "sample(n) draws exactly n aligned rows of the loader", "statement": "DataLoader.sample(seed, n) returns batches with exactly n rows in total, every row being an (input, target) pair of the loader, no batch empty; on an empty loader with n >= 1 it never returns.", "quantifier": "every loader with aligned batches, every n, every outcome of the random draws", "why_tests_cant": "Depends on every sequence of random draws and on the number of passes over the data.", "anchors": ["fortuna/data/loader/array_loaders.py:DataLoader.sample", "fortuna/data/loader/array_loaders.py:IterableData"]}
{"id": "C56", "title": "The multiple-choice collator keeps examples and choices in place", "statement": "Collating a list of examples with the same number of choices pads them as one flat batch and returns an array whose (i, j) entry is the processed choice j of example i.", "quantifier": "every non-empty list of examples with equally many choices, every row-wise padding function", "why_tests_cant": "A reshape error shows only for particular shapes.", "anchors": ["fortuna/data/dataset/huggingface_datasets.py", "fortuna/data/dataset/data_collator.py:FlaxDataCollatorForMultipleChoice"]}
{"id": "C57", "title": "Hallucination data: batching keeps texts and contexts paired, balancing equalises classes", "statement": "The mini-batches of (texts, contexts) enumerate the pairs once, in order, in batches of 1..batch_size; balancing returns the original data followed by resampled rows of the data (text, context and label taken from the same row) so that both labels occur equally often.", "quantifier": "all lists of texts/contexts/labels of equal length, all batch sizes >= 1, all random choices", "why_tests_cant": "Ranges over all data sets and random draws.", "anchors": ["fortuna/hallucination/base.py:HallucinationMulticalibrator._balance_data", "fortuna/hallucination/base.py:HallucinationMulticalibrator"]}
{"id": "C58", "title": "find_one_path_to_key finds a real path", "statement": "If the key occurs anywhere in the nested dictionary, the returned path exists in it, ends with the key and does not contain it earlier; otherwise the empty path is returned.", "quantifier": "every nested dictionary, every key", "why_tests_cant": "Arbitrary depth and branching; the recursion can return a partial path when a branch fails.", "anchors": ["fortuna/utils/nested_dicts.py:find_one_path_to_key"]}
{"id": "C59", "title": "Jackknife+ coverage over hold-outs", "statement": "For any N points and any symmetric training procedure (leave-two-out predictions pred i j), when each point is held out in turn and the jackknife+ interval is computed from the leave-one-out models of the rest, at most 2*ceil(error*(n-1))+1 of the N=n+1 targets are not covered. The documented guarantee of at most 2*error*N misses fails because the plain empirical quantile is used (refutation).", "quantifier": "every number of points, every targets and predictions, every error in [0,1]", "why_tests_cant": "The bound is a combinatorial (tournament) statement about all data sets and all learning algorithms; tests only see particular ones.", "anchors": ["fortuna/conformal/regression/jackknifeplus.py:JackknifePlusConformalRegressor"]}
{"id": "C60", "title": "Jackknife-minmax coverage over hold-outs", "statement": "For any N points and any symmetric training procedure, when each point is held out in turn and the jackknife-minmax interval is computed from the rest, at most ceil(error*(n-1))+1 of the N=n+1 targets are not covered. The documented guarantee of at most error*N misses fails because the plain empirical quantile is used (refutation).", "quantifier": "every number of points, every targets and predictions, every error in [0,1]", "why_tests_cant": "The bound is a combinatorial statement about all data sets and all learning algorithms; tests only see particular ones.", "anchors": ["fortuna/conformal/regression/jackknife_minmax.py:JackknifeMinmaxConformalRegressor"]}
{"id": "C61", "title": "Each optimizer update uses a fresh random key", "statement": "Without gradient accumulation, every training step of a run (over all epochs) receives a random key different from that of every other step of the run; with accumulation the key changes only between groups of micro-batches (so micro-batches of a group share one key, a finding).", "quantifier": "every data loader, number of epochs and accumulation setting", "why_tests_cant": "Distinctness of keys over runs of arbitrary length.", "anchors": ["fortuna/training/trainer.py:TrainerABC._training_loop", "fortuna/training/trainer.py:TrainerABC.training_step"]}
{"id": "C62", "title": "Random keys are never reused", "statement": "Successive keys handed out by RandomNumberGenerator.get are pairwise distinct, and the keys one call of Predictive.variance passes to its two estimates differ; across consecutive calls of variance, however, the epistemic key of one call equals the aleatoric key of the next (refuted).", "quantifier": "every seed and number of calls (ideal key derivation)", "why_tests_cant": "Unbounded sequences of calls.", "anchors": ["fortuna/utils/random.py:RandomNumberGenerator.get", "fortuna/prob_model/predictive/base.py:Predictive.variance"]}
{"id": "C63", "title": "Ensemble members keep frozen parameters and re-randomise trainable ones", "statement": "After a preliminary MAP fit, the starting parameters of each ensemble member agree with the MAP parameters on every frozen leaf and with a fresh random initialisation on every trainable leaf, and building them never fails when the two trees have the same structure.", "quantifier": "every parameter tree, random initialisation and freeze labelling", "why_tests_cant": "Arbitrary trees and labellings.", "anchors": ["fortuna/prob_model/posterior/deep_ensemble/deep_ensemble_posterior.py:DeepEnsemblePosterior._init_map_state"]}
{"id": "C64", "title": "Periodic checkpoints are written exactly at multiples of save_every_n_steps", "statement": "During training without accumulation, a checkpoint is written exactly at those global steps that are multiples of save_every_n_steps, holds the state of that step, and a final one is forced at the end when a checkpoint directory is configured; with accumulation, steps inside a group write none (finding).", "quantifier": "every data loader, number of epochs and saving period", "why_tests_cant": "Step counts are unbounded.", "anchors": ["fortuna/training/trainer.py:TrainerABC.training_step_end", "fortuna/training/trainer.py:TrainerABC.train", "fortuna/training/mixin.py:WithCheckpointingMixin.save_checkpoint"]}
{"id": "C65", "title": "Loss scaling never lets a non-finite gradient reach the parameters", "statement": "With dynamic loss scaling and no accumulation, a step whose gradient is not finite leaves parameters and optimizer state unchanged, and a step with finite gradient behaves as without scaling; with accumulation a non-finite micro-batch gradient does reach the update (refuted).", "quantifier": "every gradient, optimizer and state", "why_tests_cant": "All gradients including non-finite ones, and all optimizers.", "anchors": ["fortuna/training/trainer.py:TrainerABC.training_step", "fortuna/training/trainer.py:TrainerABC.params_update_with_grad_accumulation"]}
{"id": "C66", "title": "Weight decay mask excludes biases and layer norms and nothing else", "statement": "The decay mask has a boolean leaf exactly where the parameters have a leaf, false for every bias and for every leaf sharing its last two path components with a layer-norm parameter, true otherwise; but because path components are joined before matching, weights with no layer norm in any component may be excluded (refuted).", "quantifier": "every parameter tree", "why_tests_cant": "Arbitrary trees and names.", "anchors": ["fortuna/utils/optimizer.py:decay_mask_without_layer_norm_fn"]}
{"id": "C67", "title": "CV+ conformal classification returns one set per fold and test point; adaptive classifier update", "statement": "CV+ classification returns as many sets as there are test rows summed over the folds, not one per input (refuted for two folds and a single input). The adaptive classifier update keeps the error in [0,1], increases it when the label was in the set, decreases it when it was not, and moves it by at most gamma.", "quantifier": "every fold structure, score function, set, label, error", "why_tests_cant": "The tests only check the type of the result for one shape.", "anchors": ["fortuna/conformal/classification/base.py:CVPlusConformalClassifier", "fortuna/conformal/classification/adaptive_conformal_classifier.py"]}
{"id": "C68", "title": "Multicalibration makes progress", "statement": "After T recorded additive patches of step eta in [0,1], in at least one of the rounds every examined group/bucket of probability at least min_prob_b had weighted squared calibration error at most 1/(eta(2-eta)T) (more precisely the initial mean squared error divided by eta(2-eta)T), where the weighted error is the probability of the set times the squared difference of its mean score and mean value. Holds for plain and top-label calibrators, with clipping.", "quantifier": "every data set, grouping, number of rounds and configuration", "why_tests_cant": "Quantitative bound over all executions of a data-dependent loop.", "anchors": ["fortuna/conformal/multivalid/iterative/base.py:IterativeMultivalidMethod.calibrate", "fortuna/conformal/multivalid/iterative/multicalibrator.py"]}
{"id": "C69", "title": "BatchMVP picks the grid shift with the best coverage", "statement": "The BatchMVP patch is one of the 2n-1 equispaced shifts in [-1,1] and no other shift gives a smaller squared gap between the requested coverage and the fraction of covered scores in the set; ties go to the smallest minimiser if some minimiser is positive and to the largest otherwise. The set error is the probability of the set times that squared gap. Multiplicative patches are refused; the pinball loss is non-negative; conformal sets contain exactly the labels with score at most the threshold.", "quantifier": "every data set, coverage, number of buckets", "why_tests_cant": "Optimality over a grid for arbitrary data and the tie rule.", "anchors": ["fortuna/conformal/multivalid/iterative/batch_mvp.py", "fortuna/conformal/multivalid/mixins/batchmvp.py"]}
{"id": "C70", "title": "Multivalid argument checks and edge cases", "statement": "calibrate accepts its arguments exactly when n_rounds >= 1, eta and split are in (0,1], min_prob_b is auto or in [0,1], the patch type is known, and test values/groups are given consistently with calibration values/groups. Binary targets are accepted iff both labels occur and no other (so single-class data are rejected). Multiplicative patches from all-zero values are never finite. The relative-tolerance test never divides by zero when atol >= 0. Top-label scores are one-hot. The calibration split has ceil(split * size) points, between 1 and size.", "quantifier": "every argument combination, target list and size", "why_tests_cant": "Cross product of optional arguments; boundary cases.", "anchors": ["fortuna/conformal/multivalid/iterative/base.py:IterativeMultivalidMethod.calibrate", "fortuna/conformal/multivalid/mixins/classification/binary_multicalibrator.py", "fortuna/conformal/multivalid/mixins/classification/top_label_multicalibrator.py"]}
{"id": "C71", "title": "Output calibrators rescale confidence without changing predictions", "statement": "Dividing logits by exp(log_temp) gives the temperature-scaled softmax probabilities with temperature exp(log_temp); at the initial value 0 the outputs are unchanged; the most likely class never changes. The regression calibrator keeps the means and multiplies every variance by exp(log_temp); an odd output size raises ValueError.", "quantifier": "every real log-temperature, every output row", "why_tests_cant": "All real vectors and temperatures.", "anchors": ["fortuna/output_calibrator/classification.py", "fortuna/output_calibrator/regression.py"]}
{"id": "C72", "title": "Output layers are the stated distributions", "statement": "The classification output layer's log-probability of a label is the log of its softmax probability, never positive and exponentially summing to one; its prediction is the first most probable label; its entropy is the Shannon entropy, between 0 and ln n_classes; labels outside the classes are scored silently. The masked layer gives label 0 log-probability 0, so its probabilities sum to 2 minus that of label 0. The regression layer's log-probability is the sum of normal log-densities with mean and variance read from the two halves of the outputs, maximal only at the mean; an odd number of outputs raises ValueError; std returns variances given by the caller unchanged (refutation).", "quantifier": "every output vector and target", "why_tests_cant": "All real outputs.", "anchors": ["fortuna/prob_output_layer/classification.py", "fortuna/prob_output_layer/regression.py", "fortuna/prob_output_layer/base.py"]}
{"id": "C73", "title": "Credible intervals hold the requested share of the target samples", "statement": "The two-tailed credible interval is ordered and at least k of the samples are at or above its lower end, and at least k at or below its upper end, for every k with k + error/2 (n-1) <= n; one-tailed intervals likewise with error; a smaller error widens the interval; an unknown interval type raises ValueError in the predictive but IndexError in the output layer.", "quantifier": "every list of samples and error", "why_tests_cant": "All sample lists.", "anchors": ["fortuna/prob_model/predictive/regression.py", "fortuna/prob_output_layer/regression.py"]}
{"id": "C74", "title": "Langevin and Hamiltonian updates follow the stated dynamics", "statement": "With zero momentum decay an update is step * M^-1 * gradient + sqrt(2 step) * M^-1/2 * standard normal noise (M the preconditioner); with decay the momentum follows m <- decay m + sqrt(step) g + sqrt(2(1-decay)) noise. In the exploration part of a cycle the cyclical integrator takes a noise-free gradient step and leaves key and momentum alone, in the sampling part it is exactly SGLD. Every noisy update consumes a fresh key of the split chain. At multiples of the resampling period earlier momentum has no effect. After k updates the counter is k. So in a run from the initial state the n-th Langevin update has M = eps + sqrt((1 - factor) sum_i factor^(n-i) g_i^2), and the n-th Hamiltonian update is sqrt(step) times the sum over i <= n of decay^(n-i) (sqrt(step_i) g_i + sqrt(2(1-decay)) noise_i), with the noise of the i-th key of the split chain.", "quantifier": "every gradient history, schedule, key function and state", "why_tests_cant": "Exact real dynamics for arbitrary histories.", "anchors": ["fortuna/prob_model/posterior/sgmcmc/sghmc/sghmc_integrator.py", "fortuna/prob_model/posterior/sgmcmc/cyclical_sgld/cyclical_sgld_integrator.py"]}
{"id": "C75", "title": "Effective sample size lies between 0 and the chain length", "statement": "With a filter threshold in [0,1] (default 0) the effective sample size of a non-constant chain is positive and at most the number of samples. Without a threshold the denominator is zero for every chain, so the documented filter_threshold=None never gives a finite number; a threshold above 1 always gives minus the chain length; a constant chain gives NaN.", "quantifier": "every chain of rationals", "why_tests_cant": "All chains; the None case needs an identity about all lags.", "anchors": ["fortuna/prob_model/posterior/sgmcmc/sgmcmc_diagnostic.py:effective_sample_size"]}
{"id": "C76", "title": "Kernel Stein discrepancy is real, symmetric and translation invariant", "statement": "For every chain of samples and gradients the discrepancy is a real non-negative number: its square times n^2 is the sum over all pairs of points of the Langevin Stein kernel of the inverse multiquadric kernel (mixed second derivative plus gradient times first derivatives plus product of gradients times kernel, summed over coordinates), and that sum is never negative, so the square root never takes a negative argument. The Stein kernel is unchanged when its two points are exchanged together with their gradients, and when both points are translated; a single sample has discrepancy sqrt(|gradient|^2 + dimension), so it is never zero; explicitly passed kernel parameters are traced by jit and the checks on them raise.", "quantifier": "every sample and gradient list", "why_tests_cant": "All real vectors and chains of any length; positive semi-definiteness is a statement about all coefficient vectors.", "anchors": ["fortuna/prob_model/posterior/sgmcmc/sgmcmc_diagnostic.py:kernel_stein_discrepancy_imq"]}
{"id": "C77", "title": "Model managers return auxiliary variables only in training, and model states split variables losslessly", "statement": "The classification model manager returns (outputs, mutable) exactly when training with mutable variables, with the outputs and updated variables of the forward pass, and bare outputs otherwise. Without mutable variables the regression manager's output row is the mean row followed by the log-variance row, and rows of different widths are rejected. Building a model state from a variables dictionary keeps each component's 'params' as parameters and every other collection as mutable, with mutable None exactly when there are none. Findings: with mutable variables the regression manager returns a pair in evaluation too, stores the mean model's variables in place of the log-variance model's, and rejects FrozenDicts.", "quantifier": "every forward function, batch, variables dictionary, train flag", "why_tests_cant": "All networks and variable dictionaries; combinations of flags.", "anchors": ["fortuna/model/model_manager/classification.py", "fortuna/model/model_manager/regression.py", "fortuna/model/model_manager/state.py"]}
{"id": "C78", "title": "Gaussian priors are normal log densities", "statement": "The isotropic prior's log joint probability is the sum over all parameters of the normal log density with mean zero and variance exp(log_var); the diagonal prior does so with one log-variance per parameter and agrees with the isotropic one when they are constant. The prior is maximal exactly at zero and decreases as parameters grow in absolute value. Samples are the noise times the standard deviation sqrt(exp(log_var)).", "quantifier": "every parameter vector and log-variance", "why_tests_cant": "All real parameters.", "anchors": ["fortuna/prob_model/prior/gaussian.py"]}
{"id": "C79", "title": "A posterior fit starts from checkpoint, current state, MAP or fresh state in that order", "statement": "When fitting a posterior, a given checkpoint path takes precedence over the current state, which takes precedence over a preliminary MAP run, which takes precedence over a fresh initialisation. A restored or current state of a kind the approximation does not allow is rejected, as is dump_state without a directory. Laplace refuses to start fresh.", "quantifier": "every configuration and every available state", "why_tests_cant": "All combinations of options and states.", "anchors": ["fortuna/prob_model/posterior/base.py:Posterior", "fortuna/prob_model/posterior/laplace/laplace_posterior.py:LaplacePosterior.fit"]}
{"id": "C80", "title": "The Laplace curvature is the diagonal Gauss-Newton matrix and yields valid standard deviations", "statement": "For every eigendecomposition of the output Hessian, the computed curvature of a parameter equals minus its Jacobian column applied on both sides of the Hessian of the log-likelihood, summed over all data points whatever the batching. For softmax classification the Hessian used is the true second derivative and the curvature is non-negative, so the standard deviation exists, equals (prior precision + curvature)^(-1/2), never exceeds the prior's, shrinks with curvature and grows with the prior variance; with zero noise a sample is the mean. For Gaussian regression outputs the Hessian is indefinite and the standard deviation can be NaN (finding).", "quantifier": "every model Jacobian, outputs, targets, batching and prior log-variance", "why_tests_cant": "All real matrices.", "anchors": ["fortuna/prob_model/posterior/laplace/laplace_posterior.py:LaplacePosterior._gnn_approx", "fortuna/prob_model/posterior/laplace/laplace_posterior.py:LaplacePosterior._compute_std", "fortuna/prob_model/posterior/laplace/laplace_posterior.py:LaplacePosterior.sample"]}
{"id": "C81", "title": "State conversion is lossless and prior tuning selects the best candidate", "statement": "Pairing means with curvatures (or log standard deviations) component by component and reading them back returns both, and a missing component is a KeyError. Tuning returns the first candidate with the smallest negative log-probability among the grid and the current prior log-variance, hence never a worse one than the current. Without distribute, tuning never succeeds (finding).", "quantifier": "every parameter dictionary, score function and grid", "why_tests_cant": "All dictionaries and score functions.", "anchors": ["fortuna/prob_model/posterior/laplace/laplace_state.py:LaplaceState.convert_from_map_state", "fortuna/prob_model/posterior/laplace/laplace_posterior.py:LaplacePosterior.prior_log_variance_tuning", "fortuna/prob_model/posterior/normalizing_flow/advi/advi_trainer.py:ADVITrainer._unravel_params"]}
{"id": "C82", "title": "The ADVI flow is invertible and its loss is the negative evidence lower bound up to a constant", "statement": "The backward pass inverts the forward pass with the opposite log-determinant. The base log-density minus the log-determinant is the log-density of the scaled and shifted normal distribution. The training loss plus the mean base log-density, which does not depend on the parameters, is the Monte Carlo negative evidence lower bound.", "quantifier": "every parameter vector, base sample and loss function", "why_tests_cant": "All real vectors.", "anchors": ["fortuna/prob_model/posterior/normalizing_flow/advi/advi_architecture.py:ADVIArchitecture", "fortuna/prob_model/posterior/normalizing_flow/normalizing_flow_trainer.py:NormalizingFlowTrainer.training_loss_step", "fortuna/distribution/gaussian.py:DiagGaussian"]}
{"id": "C83", "title": "ADVI with frozen parameters starts from the initial parameters", "statement": "With a freeze function, the flat vector from which ADVI training starts lists the trainable parameters in sorted path order. It is the vector that the unravel function expects exactly when the trainable paths are already sorted; otherwise parameters are permuted (finding, e.g. kernel before bias).", "quantifier": "every parameter tree and selection of leaves", "why_tests_cant": "All trees and key orders.", "anchors": ["fortuna/prob_model/posterior/normalizing_flow/advi/advi_trainer.py:ADVITrainer.on_train_start", "fortuna/prob_model/posterior/normalizing_flow/advi/advi_posterior.py:ADVIPosterior._get_unravel"]}
{"id": "C84", "title": "The SNGP precision matrix accumulates every training feature exactly once per epoch", "statement": "Without momentum, the precision matrix after an epoch is ridge times the identity plus the sum of the outer products of all feature vectors of the epoch, however they were batched. It is symmetric and at least ridge (ridge times m^k after k batches with momentum m) in every direction. A momentum is accepted exactly between 0 and 1. The epoch-start callback resets the stored precision array to ridge times the identity and keeps every other array; the last registered callback decides. A missing precision entry raises ValueError.", "quantifier": "every number of features, batching, momentum, ridge and tree of mutable collections", "why_tests_cant": "All data sets, batchings and nested trees.", "anchors": ["fortuna/model/utils/random_features.py:LaplaceRandomFeatureCovariance", "fortuna/prob_model/posterior/sngp/sngp_callback.py:ResetCovarianceCallback.training_epoch_start", "fortuna/prob_model/posterior/sngp/sngp_posterior.py:SNGPPosterior.fit"]}
{"id": "C85", "title": "The SNGP predictive variance is the Gaussian process posterior variance and shrinks with data", "statement": "The predictive covariance of two feature vectors is ridge times f^T P^-1 g for the accumulated precision P. The variance lies between 0 and the squared feature norm, never increases when more data are seen, equals the prior variance for features orthogonal to all training features, and is at most ridge |f|^2/(ridge+|f|^2) for a training feature. The required Cholesky factor always exists for a positive ridge. Random Fourier features are bounded by the scale, and their squared norm is at most 2 with the default scale.", "quantifier": "every dimension, ridge > 0, data set, batching and feature vector", "why_tests_cant": "Real-valued inequalities over all data sets.", "anchors": ["fortuna/model/utils/random_features.py:LaplaceRandomFeatureCovariance.compute_predictive_covariance", "fortuna/model/utils/random_features.py:RandomFourierFeatures", "fortuna/model/utils/random_features.py:RandomFeatureGaussianProcess"]}
{"id": "C86", "title": "SNGP mean-field logits temper the confidence and keep the prediction", "statement": "The logits are divided by sqrt(1 + factor * variance), a negative factor is rejected with ValueError. The predicted class stays the same and its probability does not increase when the variance grows, and is never above the one of the unscaled logits. The manager's apply gives the two SNGP collections to the output layer and the others to the extractor, and in training merges both updates. An empty mutable raises UnboundLocalError (finding). The state check raises exactly when no spectral statistics are present.", "quantifier": "every logit vector, variances and factor; all collections of mutable variables", "why_tests_cant": "All real logits and variances.", "anchors": ["fortuna/model/model_manager/classification.py:SNGPClassificationModelManagerMixin._mean_field_logits", "fortuna/model/model_manager/classification.py:SNGPClassificationModelManagerMixin.apply", "fortuna/prob_model/posterior/sngp/sngp_posterior.py:SNGPPosterior._check_state"]}
{"id": "C87", "title": "Spectral normalisation never increases a kernel's gain and bounds it when the norm estimate is accurate", "statement": "The normalised kernel has at most the gain of the kernel on every input, and equals the kernel if the estimated norm is at most the multiplier. If the estimate is at least the true gain, the normalised gain is at most the multiplier. After any number of power iterations the estimate is at most the true gain and does not decrease with more iterations; in the tracked direction the gain is at most the multiplier. Power iteration from an orthogonal start never finds the norm, so that the bound is not guaranteed (refuted in general).", "quantifier": "every kernel, stored singular vectors, number of iterations and multiplier", "why_tests_cant": "All real matrices and iteration counts.", "anchors": ["fortuna/model/utils/spectral_norm.py:SpectralNormalization", "fortuna/model/utils/spectral_norm.py:_l2_normalize"]}
{"id": "C88", "title": "The Mahalanobis score is the distance from the nearest class mean", "statement": "Fitting stores the mean of each class and the shared covariance of the embeddings centred at their class means, and the score of an embedding is the smallest squared Mahalanobis distance from a class mean; it is non-negative and zero at an observed class mean. A class without training embeddings makes every score NaN although the warning announces that the fit proceeds (finding). Scoring before fitting raises NotFittedError.", "quantifier": "every data set, number of classes, dimension and embedding", "why_tests_cant": "All real data sets and embeddings.", "anchors": ["fortuna/ood_detection/mahalanobis.py:MalahanobisOODClassifier.fit", "fortuna/ood_detection/mahalanobis.py:MalahanobisOODClassifier.score"]}
{"id": "C89", "title": "The deep deterministic uncertainty score is the negative log-density of the fitted class mixture", "statement": "Fitting stores class means and unbiased class covariances, plus the smallest jitter of the list for which the factorisation succeeds (the last one if none does). The score is minus the log-sum-exp of the class log-densities, i.e. minus the logarithm of a sum of Gaussian densities, and decreases when every class density increases. A class with one embedding raises ZeroDivisionError, and a class without embeddings makes every score at most 0 (findings). Scoring before fitting raises NotFittedError.", "quantifier": "every data set, number of classes, jitter list and embedding", "why_tests_cant": "All real data sets and embeddings.", "anchors": ["fortuna/ood_detection/ddu.py:DeepDeterministicUncertaintyOODClassifier.fit", "fortuna/ood_detection/ddu.py:DeepDeterministicUncertaintyOODClassifier.score"]}
{"id": "C90", "title": "Probit scaling shrinks each output by its Jacobian norm", "statement": "Every output is divided by 1 + pi/8 * exp(log_var) * s, where s is the squared norm of its Jacobian row. With top_k, exactly k outputs with the largest values use their own norm, all others use the largest norm of those. The sign is kept, the magnitude never grows, and it does not increase with log_var. top_k = 0 behaves like no top_k (finding). The predicted class can change (argmax preservation refuted).", "quantifier": "every Jacobian, output vector, log-variance and top_k", "why_tests_cant": "All real Jacobians and outputs.", "anchors": ["fortuna/utils/probit.py:probit_scaling", "fortuna/utils/grad.py:value_and_jacobian_squared_row_norm"]}
{"id": "C91", "title": "Sequential probit scaling uses the Jacobian's distance from the span of earlier tokens", "statement": "With the default memory, the scale of output a of the i-th final token is the squared distance of its Jacobian row from the span of all rows of the earlier final tokens; it lies between 0 and the squared row norm. Tokens before the final ones are returned unchanged, and the final ones are divided by 1 + pi/8 * exp(log_var) * scale. The numbers of final tokens and of memory are rejected with ValueError exactly when out of range. With a smaller memory the scale can be negative (refuted), and with top_k the scales of the selected outputs are permuted (refuted).", "quantifier": "every number of tokens, outputs and parameters and all linearly independent Jacobian rows", "why_tests_cant": "All Jacobians, sequence lengths and block sizes; the recursion is an invariant over all tokens.", "anchors": ["fortuna/utils/probit.py:sequential_probit_scaling", "fortuna/model_editor/probit.py:ProbitModelEditor"]}
{"id": "C92", "title": "Calibration losses are proper likelihood losses", "statement": "With labels in range, the cross-entropy loss is the mean of -log p(label), p being the softmax of the outputs, and is never negative. The focal loss is the mean of -(1-p)^gamma log p; it equals the cross-entropy for gamma 0, does not increase with gamma, never exceeds the cross-entropy, for gamma 2 differs from it by at most 2/e, and strictly decreases in the probability of the label. Both are unchanged when a constant is added to the outputs of a row. For labels out of range the focal loss is infinite while the cross-entropy stays finite. The scaled mean squared error equals -2 times the mean Gaussian log-density minus d log 2 pi, raises ValueError for an odd number of outputs, and is minimised in the log-variance exactly at the log of the squared residual.", "quantifier": "every batch of real outputs and targets, every number of classes and every gamma >= 0", "why_tests_cant": "Inequalities and equivalences over all real outputs and exponents.", "anchors": ["fortuna/loss/classification/cross_entropy.py:cross_entropy_loss_fn", "fortuna/loss/classification/focal_loss.py:focal_loss_fn", "fortuna/loss/regression/scaled_mse.py:scaled_mse_fn"]}
{"id": "C93", "title": "Output calibrators train for whole epochs over paired batches and outputs", "statement": "A run of an output calibrator that returns has applied, for each completed epoch, one step per pair of a batch and its precomputed outputs, in order, and reports the mean of what the steps of the epoch report; validation happens at the epochs divisible by eval_every_n_epochs with the state after the epoch. Without early stopping all epochs are run; with it the run ends at the first stalled validation. The random keys of the steps are all different. Batches without outputs, or outputs without batches, are silently dropped; with no pair at all the run raises TypeError, otherwise it succeeds. Periodic checkpoints are written after every batch of the epochs divisible by save_every_n_steps (finding: the parameter counts epochs), forced ones are states at the end of an epoch and the last is the returned state; nothing is written without a directory. A calibrator of stored outputs makes one full-batch step per epoch. With several devices the outputs used for validation metrics are averages over the devices (refuted: not the outputs).", "quantifier": "every step and validation function, state, configuration, list of batches and outputs", "why_tests_cant": "All training functions, configurations and numbers of epochs and batches.", "anchors": ["fortuna/training/output_calibrator.py:OutputCalibratorABC", "fortuna/training/output_calibrator.py:MultiDeviceMixin", "fortuna/output_calib_model/output_calib_model_calibrator.py:OutputCalibModelCalibrator", "fortuna/training/mixin.py:WithCheckpointingMixin"]}
{"id": "C94", "title": "Output calibration losses and predictions use the calibrated outputs", "statement": "The loss of an output calibration model is the loss function of the calibrated outputs, and the auxiliary dictionary holds exactly the requested entries. Unknown names or missing mutable variables raise TypeError. Predictive methods use the raw outputs with calibrated=False, raise ValueError when calibrated without a state, and otherwise apply the output layer to the outputs of the calibrator in evaluation mode. A calibrator with mutable variables can be trained for one step only: the variables returned by the first step make every later loss or prediction raise AttributeError (refuted).", "quantifier": "every calibrator, loss, output layer, parameters, outputs and targets", "why_tests_cant": "All calibrators and losses are parameters.", "anchors": ["fortuna/output_calib_model/loss.py:Loss", "fortuna/output_calib_model/predictive/base.py:Predictive", "fortuna/output_calibrator/output_calib_manager/base.py:OutputCalibManager"]}
{"id": "C95", "title": "Calibration models evaluate their loss on the model outputs and check dimensions", "statement": "For a model without mutable variables, the loss of a calibration model is the loss function of the model outputs. For a model with mutable variables evaluation works but every training step raises, and passing precomputed outputs always raises (refuted: such models cannot be calibrated). Classification accepts the data exactly when they are not empty and the number of outputs equals the number of different labels present; regression exactly when the targets have d > 0 columns and there are 2 d outputs; everything else is ValueError.", "quantifier": "every model, loss, input, target and list of auxiliary names", "why_tests_cant": "All models and losses are parameters.", "anchors": ["fortuna/calib_model/loss.py:Loss", "fortuna/calib_model/classification.py:CalibClassifier", "fortuna/calib_model/regression.py:CalibRegressor"]}
{"id": "C96", "title": "Calibration flows start from the right state and touch only calibration variables", "statement": "Calibrating stored outputs needs both or none of validation outputs and targets, else ValueError. A calibration model rejects dump_state without a directory before training, starts from the checkpoint if one is given, else from the current state if asked to, else from a fresh one. A probabilistic model rejects loaders that iterate randomly even when there is nothing to calibrate; without calibrator the state is unchanged; with one and no posterior state it raises ValueError; otherwise training starts from the stored or restored calibration variables, only these change, and the state is dumped exactly when asked to with a directory. Training calibrates after fitting exactly when a non-empty calibration loader is given.", "quantifier": "every training function, state, configuration and data", "why_tests_cant": "All outcomes of fitting and calibration are parameters.", "anchors": ["fortuna/output_calib_model/base.py:OutputCalibModel", "fortuna/calib_model/base.py:CalibModel", "fortuna/prob_model/base.py:ProbModel"]}
{"id": "C97", "title": "Randomised loaders are detected in the first batches", "statement": "check_data_loader_is_not_random raises ValueError exactly when two iterations differ in one of the batches 0 to max_iter present in both. Differences after that, or a different number of batches, go unnoticed (refuted).", "quantifier": "every pair of iterations and max_iter", "why_tests_cant": "All loaders and positions of the difference.", "anchors": ["fortuna/utils/data.py:check_data_loader_is_not_random"]}
{"id": "C98", "title": "The calibration objective averages the joint likelihoods of posterior draws", "statement": "Ensemble outputs use the same posterior draws for every batch, and the size is the number of points. The objective is minus the log of the average over draws of the rescaled joint likelihood of the batch; it is at most the average negative log-likelihood, lies between the extremes, and for one draw is the rescaled negative log-likelihood. It is not the pointwise predictive log-likelihood (refuted). Splitting a batch over devices keeps data and outputs aligned, and a batch size that is no multiple raises ValueError. With one draw the mean over devices is the objective of the batch; with more it is not (refuted). Distributed sampling uses different draws on different devices and counts devices instead of points (refuted).", "quantifier": "every posterior, network, batch, number of draws and devices", "why_tests_cant": "Real inequalities over all log-likelihoods; all batch and device counts.", "anchors": ["fortuna/prob_model/predictive/base.py:_batched_log_joint_prob", "fortuna/prob_model/predictive/base.py:_sample_outputs_loader", "fortuna/prob_model/prob_model_calibrator.py:ProbModelMultiDeviceMixin", "fortuna/training/output_calibrator.py:sync_gradients_and_loss"]}
{"id": "C99", "title": "Inverse perplexity is the geometric mean of the text token probabilities", "statement": "For a token sequence inside the vocabulary, inv_perplexity with 1 <= n < length is the positive number, at most 1, whose n-th power is the product of the softmax probabilities that the model gives to the last n tokens given the previous ones; with n = 0 or n >= length all tokens but the first count; a token outside the vocabulary raises IndexError and nothing else does; a single token gives NaN. In batches whose contexts and texts all have the same lengths each score equals the score of that item alone. It is refuted for other batches: padding tokens are counted, so a score depends on the other texts of the batch.", "quantifier": "all logits, labels and n; all language models, pad ids and batches", "why_tests_cant": "The geometric mean identity is over all real logits and sequence lengths; tests compare a few floats.", "anchors": ["fortuna/hallucination/scoring/inv_perplexity.py:perplexity", "fortuna/hallucination/scoring/inv_perplexity.py:inv_perplexity", "fortuna/hallucination/base.py:HallucinationMulticalibrator._get_logits_scores"]}
{"id": "C100", "title": "Grouping model: normalisation, best model by BIC, hard and soft groups", "statement": "Normalised training columns have mean 0 and variance 1, any data is mapped by the same affine map, and normalisation is undefined exactly for constant training columns. The chosen clustering model has the smallest finite BIC and is the first such one; UnboundLocalError is raised exactly when no BIC is finite. hard_predict marks exactly the first most likely cluster of each row. With threshold t and n calibration points every quantile group has at least c members whenever t(n-1)+c <= n, so it is never empty, while soft_predict leaves out at least c points whenever c <= t(n-1)+1 and its groups are contained in the quantile groups; a soft group can be empty (refuted that it is not).", "quantifier": "all embeddings, models, probability matrices, thresholds and rows", "why_tests_cant": "Bounds on group sizes concern every data size and threshold, ties included.", "anchors": ["fortuna/hallucination/grouping/clustering/base.py:GroupingModel", "fortuna/hallucination/grouping/clustering/base.py:GroupingModel._fit_best_model", "fortuna/hallucination/grouping/clustering/base.py:GroupingModel.hard_predict", "fortuna/hallucination/grouping/clustering/base.py:GroupingModel.soft_predict", "fortuna/hallucination/grouping/clustering/base.py:GroupingModel._normalize", "fortuna/hallucination/base.py:HallucinationMulticalibrator._get_groups"]}
{"id": "C101", "title": "Hallucination multicalibrator: fitting, predicting, saving", "statement": "Predicting before fit raises ValueError unless probabilities are given; labels are 1 exactly for probabilities at least one half. Without calibration the raw scores are returned. Predictions are in [0,1] when scores are, one per text, and with a scorer, reduction and grouping that treat texts separately each prediction is the one the text would get alone, for every batch size. After a successful fit, predicting the calibration texts applies the recorded patches to the scores and groups they were found with. A fit that raises leaves the old patches or no patches, never partial ones; when all targets are positive fit raises ValueError and afterwards predict_proba silently returns the raw scores. Loading what was saved restores the object.", "quantifier": "all scorers, reductions, grouping models, calibrations, texts, contexts, targets, batch sizes and thresholds", "why_tests_cant": "Statements range over all component behaviours including failures at each step of fit.", "anchors": ["fortuna/hallucination/base.py:HallucinationMulticalibrator.fit", "fortuna/hallucination/base.py:HallucinationMulticalibrator.predict_proba", "fortuna/hallucination/base.py:HallucinationMulticalibrator.predict", "fortuna/hallucination/base.py:HallucinationMulticalibrator.save", "fortuna/hallucination/base.py:HallucinationMulticalibrator.load", "fortuna/hallucination/base.py:HallucinationMulticalibrator._compute_scores_embeddings"]}
{"id": "C102", "title": "String cleaning only changes white space and letter case", "statement": "string_cleaner changes only white space and letter case: reading input and output without white space and ignoring case gives the same characters in the same order. The result has no white space at its ends, and a full stop, question or exclamation mark in it is followed by white space, \"?\", \"!\", an apostrophe or the end. A text without \"!\" has no upper-case letter after the first character of the result, so sentences after a full stop are not capitalised (refutes the documented capitalisation). It is refuted that cleaning twice is the same as once and that no space is left before a comma.", "quantifier": "all ASCII texts", "why_tests_cant": "The space of texts is unbounded; the regular expression and the three splitting passes interact.", "anchors": ["fortuna/hallucination/utils/string.py:string_cleaner"]}
{"id": "C103", "title": "The MLP computes the alternation of affine maps and activations, one row at a time", "statement": "MLP(output_dim, widths, activations) in evaluation mode maps a batch to the composition dense_1, activation_1, ..., dense_L, activation_L, last dense layer; its output has one row of output_dim numbers per input row; with row-wise activations each output row is a function of its own input row only; a dropout rate of 0 makes training and evaluation agree; in training, dropout of the activations of every hidden layer is what is computed whenever the last activation is positively homogeneous (ReLU), and not in general, because dropout precedes the last activation; widths and activations of different lengths raise.", "quantifier": "every parameter set, widths, activations that keep shapes, dropout rate and mask, batch", "why_tests_cant": "Depth, widths and activations are unbounded; the off-by-one choices (which activation belongs to the feature extractor, where dropout falls) show only for particular activations and masks.", "anchors": ["fortuna/model/mlp.py:MLP", "fortuna/model/mlp.py:MLPDeepFeatureExtractorSubNet", "fortuna/model/mlp.py:MLPOutputSubNet"]}
{"id": "C104", "title": "The deep residual network adds each hidden layer to its input", "statement": "DeepResidualNet in evaluation mode computes h_0 = dense_1(x), h_i = h_{i-1} + activation_i(dense_{i+1}(h_{i-1})) for the middle layers, h_L = h_{L-1} + dense_L(h_{L-1}), then the last activation and the last dense layer; zero layers leave the stream unchanged; the first activation is never used when there are two or more layers, so with two layers the features are an affine function of the input; two consecutive widths that differ and are not 1 raise TypeError.", "quantifier": "every parameter set, widths, activations, masks and batch", "why_tests_cant": "That an argument is silently ignored for every input, and that the default two-layer feature extractor is affine, are statements about all inputs.", "anchors": ["fortuna/model/mlp.py:DeepResidualNet", "fortuna/model/mlp.py:DeepResidualFeatureExtractorSubNet"]}
{"id": "C105", "title": "Shapes of the convolutional networks", "statement": "ResNet never fails on shapes, whatever the image size, filters and stage sizes: the k-th non-empty stage has (expansion x num_filters x 2^i) channels and halves the image except in stage 0, projections are created exactly in the first block of each stage (not in stage 0 of basic blocks), and the features have num_filters x 2^(stages-1) entries (four times as many with bottlenecks). WideResNet of depth at least 10 gives (h4-7)(w4-7)64k features where h4, w4 are a quarter of the image rounded up, so 64k for sides 29-32 and none for smaller images; shallower networks ignore widen_factor. LeNet5 needs sides of at least 16, CNN of at least 4.", "quantifier": "every image size, channel count, number of filters, stage sizes, depth and widening factor", "why_tests_cant": "Shape agreement of residual additions must hold for all image sizes (odd and even at every level) and all stage configurations.", "anchors": ["fortuna/model/resnet.py:ResNet", "fortuna/model/resnet.py:ResNetBlock", "fortuna/model/resnet.py:BottleneckResNetBlock", "fortuna/model/wideresnet.py:WideResNet", "fortuna/model/wideresnet.py:WideResnetBlock", "fortuna/model/lenet.py:LeNet5", "fortuna/model/cnn.py:CNN"]}
{"id": "C106", "title": "Constant, hyperparameter and linear models", "statement": "ConstantModel and ScalarConstantModel return the same row (equal entries for the scalar one) for every input and depend only on the number of inputs; HyperparameterModel and ScalarHyperparameterModel return the given value whatever the parameters and inputs, and raise ValueError exactly when the value is not one-dimensional, respectively not a float; LinearModel applies one affine map to each row.", "quantifier": "every constant, value, parameter and input", "why_tests_cant": "Independence of inputs and parameters is a statement about all of them.", "anchors": ["fortuna/model/constant.py:ConstantModel", "fortuna/model/scalar_constant.py:ScalarConstantModel", "fortuna/model/hyper.py:HyperparameterModel", "fortuna/model/scalar_hyper.py:ScalarHyperparameterModel", "fortuna/model/linear.py:LinearModel"]}
{"id": "C107", "title": "Trainer equality, hashing and reuse of compiled steps", "statement": "Two trainers compare equal exactly when they have the same class and the same public attributes (same names, same order, equal values); equality is reflexive, symmetric and transitive and equal trainers have equal hashes, whatever their private attributes. Comparing with a plain value raises TypeError. A jitted step called on any sequence of trainers gives what tracing each trainer anew would give, provided the step depends only on public attributes, and an equal trainer never causes a new trace; if the step reads private attributes a stale trace is used (refuted).", "quantifier": "every class hierarchy, attribute list, hash function, cache and sequence of calls", "why_tests_cant": "The hash/equality contract and cache transparency range over all pairs of objects and all call histories.", "anchors": ["fortuna/utils/builtins.py:HashableMixin", "fortuna/training/trainer.py:JittedMixin"]}
{"id": "C108", "title": "Choice of trainer and of loss scaling", "statement": "devices=0 selects the plain trainer when jit is disabled and the jitted one otherwise; devices=-1 selects the multi-device trainer exactly when some device is a GPU and otherwise the jitted one, ignoring disable_jit; any other value raises NotImplementedError. Loss scaling is used exactly for half precision types.", "quantifier": "every devices value, list of platforms and flag", "why_tests_cant": "The machine running the tests has one fixed set of devices.", "anchors": ["fortuna/utils/device.py:select_trainer_given_devices", "fortuna/utils/builtins.py:get_dynamic_scale_instance_from_model_dtype"]}
{"id": "C109", "title": "Training job configuration", "statement": "The input channels always contain train, contain test and validation exactly when given and non-empty, nothing else, and each maps to the base path and relative path joined by one slash; job names start with fortuna- and contain no underscore; hyperparameters merge the three sources keeping every key and value, and raise TypeError exactly when a key occurs in two sources.", "quantifier": "every path, name and dictionary", "why_tests_cant": "Clashing keys and odd paths are rarely exercised and need a cloud job to observe.", "anchors": ["fortuna/sagemaker/utils.py:create_input_channels", "fortuna/sagemaker/utils.py:get_base_job_name", "fortuna/sagemaker/utils.py:get_hparams"]}
{"id": "C110", "title": "Sharding batches over devices", "statement": "Reshaping a batch for d devices succeeds exactly when its length is a multiple of d; then inputs and targets become d pieces of equal size whose concatenation is the batch. A loader raises ValueError when any batch is not a multiple. For an array loader of n rows and batch size b, training on d devices is possible exactly when d divides n mod b and, if there is a full batch, divides b.", "quantifier": "every number of devices, batch size and data set", "why_tests_cant": "Tests run on a machine with a single device, where every batch is accepted.", "anchors": ["fortuna/training/trainer.py:MultiDeviceMixin._add_device_dim_to_input_dataloader", "fortuna/data/loader/array_loaders.py:IterableData"]}
{"id": "C111", "title": "Training on several devices equals training on one", "statement": "Without loss scaling all replicas hold the same parameters, optimizer state and step after any number of epochs, for any model. For objectives that sum over data points, the parameters, optimizer state and step after any sequence of batches, with any gradient accumulation, clipping and optimizer, are exactly those of single-device training on the undivided batches, and the loss reported for each step is that of the whole batch. With loss scaling (half precision) the gradients are not averaged, so replicas drift apart and the returned state differs (refuted).", "quantifier": "every number of devices, sequence of batches, accumulation period, clipping function and optimizer", "why_tests_cant": "Needs several accelerators, and equality over all histories cannot be sampled.", "anchors": ["fortuna/training/trainer.py:MultiDeviceMixin", "fortuna/training/trainer.py:TrainerABC.training_step", "fortuna/training/trainer.py:MultiDeviceMixin._sync_array", "fortuna/training/trainer.py:MultiDeviceMixin.training_step_end"]}
{"id": "C112", "title": "Mutable state and metrics on several devices", "statement": "Checkpoints hold the elementwise average over devices of the mutable collections, and so does the returned state when the last epoch ends with validation; otherwise the returned state holds the collections of the first device only (refuted). Training metrics are computed on the whole batch; validation metrics are averages over devices, equal to the whole-batch metric for metrics that are means over data points, and never above the true value for root mean squared errors, which they can fall short of (refuted).", "quantifier": "every number of devices, epoch history, batch and per-point error", "why_tests_cant": "With one device all of these coincide, so single-device tests cannot see a difference.", "anchors": ["fortuna/training/trainer.py:MultiDeviceMixin._sync_mutable", "fortuna/training/trainer.py:MultiDeviceMixin.on_train_end", "fortuna/training/trainer.py:MultiDeviceMixin.validation_step", "fortuna/training/trainer.py:MultiDeviceMixin._sync_state"]}
{"id": "C113", "title": "Fits are trained with the optimizer and callbacks of their configuration", "statement": "A MAP, deep ensemble, SWAG, ADVI or SNGP fit is given the optimizer its configuration was created with and trains with it (except for deep ensembles with frozen parameters after a preliminary MAP run, see C167), provided no SGHMC or cyclical SGLD fit was made with a configuration that refers to the same FitOptimizer object; otherwise with the integrator of the last such fit. As all configurations made without an optimizer refer to one default object, the claim that a default configuration trains with the default optimizer is refuted. SGMCMC fits are given their own integrator and none of the user's callbacks. The callbacks of the other fits are those of the configuration followed by one covariance-reset callback for every earlier SNGP fit made with that configuration object.", "quantifier": "every program, that is every sequence of creations of optimizers and configurations and fits", "why_tests_cant": "Tests make one fit per configuration; the effect shows only in sequences of fits of different kinds that share default arguments.", "anchors": ["fortuna/prob_model/fit_config/base.py:FitConfig", "fortuna/prob_model/posterior/sgmcmc/sghmc/sghmc_posterior.py:SGHMCPosterior.fit", "fortuna/prob_model/posterior/sgmcmc/cyclical_sgld/cyclical_sgld_posterior.py:CyclicalSGLDPosterior.fit", "fortuna/prob_model/posterior/sngp/sngp_posterior.py:SNGPPosterior.fit"]}
{"id": "C114", "title": "Fitted states: storing, sampling, loading, continuing", "statement": "For MAP, SWAG, ADVI, SNGP and Laplace: after a successful fit, sampling gives the values at the end of training whether the state is kept in memory or in the save directory; loading the save directory into any posterior gives the same; a further fit that continues the current state or restores the directory starts from those values and that step with its own optimizer; other directories are untouched; a state in memory does not depend on the files. save_state followed by load_state preserves what is sampled. Fits that raise leave what is sampled unchanged unless they write to the directory where the state is. A fit succeeds when the starting state exists and periodic checkpoints have increasing steps above those in the directory; fitting anew into the directory of an earlier fit with periodic checkpoints raises.", "quantifier": "every checkpointer configuration, file system contents, earlier state, training run and optimizer", "why_tests_cant": "Combinations of dump_state, save and restore directories, continuation, existing files and failures are too many to test; tests use fresh temporary directories.", "anchors": ["fortuna/prob_model/posterior/base.py:Posterior.load_state", "fortuna/prob_model/posterior/base.py:Posterior.save_state", "fortuna/prob_model/posterior/map/map_posterior.py:MAPPosterior.fit", "fortuna/prob_model/posterior/swag/swag_posterior.py:SWAGPosterior.fit", "fortuna/prob_model/posterior/laplace/laplace_posterior.py:LaplacePosterior.fit", "fortuna/training/mixin.py:WithCheckpointingMixin.save_checkpoint"]}
{"id": "C115", "title": "Deep ensembles: members keep their own states", "statement": "A successful fit returns as many states as the ensemble has members, each the end of its own training run from its own start; sampling member j, also after loading the save directory, gives the values of the j-th state; continuing starts each member from its own state. Continuing with a different kind of storage raises and the trained members can no longer be sampled (refuted). save_state of an ensemble kept in memory writes nothing (refuted).", "quantifier": "every ensemble size, checkpointer configuration, file system contents and training runs", "why_tests_cant": "Tests draw random members and check shapes; they do not identify which member a sample comes from.", "anchors": ["fortuna/prob_model/posterior/deep_ensemble/deep_ensemble_posterior.py:DeepEnsemblePosterior.fit", "fortuna/prob_model/posterior/deep_ensemble/deep_ensemble_posterior.py:DeepEnsemblePosterior.sample", "fortuna/prob_model/posterior/deep_ensemble/deep_ensemble_posterior.py:DeepEnsemblePosterior.load_state", "fortuna/prob_model/posterior/deep_ensemble/deep_ensemble_posterior.py:DeepEnsemblePosterior.save_state"]}
{"id": "C116", "title": "SGMCMC: kept samples are those of the run", "statement": "After a successful SGHMC or cyclical SGLD fit, which starts at step 0 from the values of its starting state, sampling index k gives the k-th kept sample, and so does loading the save directory. If fewer samples were kept than the posterior has, the remaining indices raise ValueError when the samples are in memory or the directories were empty, but give the samples of an earlier run into the same directory (refuted: all samples are of this run). Restoring continues from the end of the chain; continuing the current state from the last kept sample. A fit rejected because of the number of samples loses the samples that were in memory, and save_state of samples in memory writes nothing (both refuted).", "quantifier": "every number of samples, checkpointer configuration, file system contents, chain and earlier samples", "why_tests_cant": "Tests use fresh directories and draw random indices; stale files and failed fits are not exercised.", "anchors": ["fortuna/prob_model/posterior/sgmcmc/sgmcmc_posterior.py:SGMCMCPosterior", "fortuna/prob_model/posterior/sgmcmc/sghmc/sghmc_posterior.py:SGHMCPosterior.fit", "fortuna/prob_model/posterior/sgmcmc/sgmcmc_sampling_callback.py:SGMCMCSamplingCallback"]}
{"id": "C117", "title": "Flat vectors and trees of parameters", "statement": "Unravelling the vector of a tree of parameters gives a tree with the same structure and the same arrays. Unravelling any vector of the same length gives a tree of the same structure and array sizes whose vector is that vector; a vector of another length raises ValueError. Entrywise arithmetic on vectors is entrywise arithmetic on the arrays of the trees.", "quantifier": "every tree of parameters, every vector and every entrywise function", "why_tests_cant": "Tests unravel a handful of small networks and compare shapes, not the correspondence of entries for arbitrary nesting and key order.", "anchors": ["fortuna/prob_model/posterior/normalizing_flow/advi/advi_posterior.py:ADVIPosterior._get_unravel", "fortuna/prob_model/posterior/normalizing_flow/advi/advi_trainer.py:ADVITrainer"]}
{"id": "C118", "title": "ADVI: stored state and draws", "statement": "Without a freeze function the stored state has the structure of the initial parameters with the variational mean and log standard deviation, a draw transforms each array entry by entry with its own mean, log standard deviation and noise, and the draw after loading the state is the same. With a freeze function, after fit each trainable array is drawn from its own slices of the variational vectors and every other array is as initially; after load_state the same holds, with noise slices in the order of the decoded paths, for every order of the decoded paths. After a fit whose state was written to a checkpoint, more than ten trainable arrays are decoded in another order than the one in which vectors are cut, and draws put values into the wrong arrays (refuted).", "quantifier": "every tree of parameters, list of trainable paths, variational vectors, noise and order of decoded paths", "why_tests_cant": "Tests have few trainable arrays and check that sampling runs; values in the wrong array of the right total size are not noticed.", "anchors": ["fortuna/prob_model/posterior/normalizing_flow/advi/advi_posterior.py:ADVIPosterior.sample", "fortuna/prob_model/posterior/normalizing_flow/advi/advi_posterior.py:ADVIPosterior.load_state", "fortuna/prob_model/posterior/normalizing_flow/advi/advi_trainer.py:ADVITrainer.on_train_end"]}
{"id": "C119", "title": "SWAG: draws with frozen parameters and on several devices", "statement": "With a freeze function, if the trainable paths are sorted and decoded in that order, a draw equal to the vector of a tree of trainable parameters has the arrays of that tree at the trainable paths and the current arrays elsewhere; for unsorted paths the arrays get entries of each other (refuted). On one device a draw combines entry i of mean, deviation and low-rank part with normal number i, and so does the state stored on several devices; the state returned by training on several devices raises TypeError in sampling, or with a single array uses one normal number for all entries (refuted).", "quantifier": "every tree of parameters, paths, statistics, normal numbers and combination function", "why_tests_cant": "Tests run on one device with networks whose total size matches, so permuted entries are not noticed.", "anchors": ["fortuna/prob_model/posterior/swag/swag_posterior.py:SWAGPosterior.sample", "fortuna/prob_model/posterior/swag/swag_trainer.py:SWAGTrainer", "fortuna/prob_model/posterior/swag/swag_trainer.py:MultiDeviceSWAGTrainer"]}
{"id": "C120", "title": "Laplace with frozen parameters: array-by-array draws", "statement": "With a freeze function, for every order in which the trainable paths are decoded, the draw of each trainable array combines its own mean, curvature and noise entry by entry, and every other array is the mean.", "quantifier": "every tree of parameters, curvatures, noise, combination function and permutation of the decoded paths", "why_tests_cant": "Tests check shapes of draws; which curvature is paired with which mean is not observed, nor is an order changed by a checkpoint.", "anchors": ["fortuna/prob_model/posterior/laplace/laplace_posterior.py:LaplacePosterior.sample", "fortuna/prob_model/posterior/laplace/laplace_state.py:LaplaceState"]}
{"id": "C121", "title": "Training status reports the average of each recorded quantity", "statement": "The status returned by training has, for every training entry (loss, logged values, metrics), one value per epoch equal to the average of that entry over the batches recorded in the epoch, and for every validation entry (val_loss, val_<metric>) one value per validated epoch. Each metric is evaluated on the predictions and targets of the batch. With validation batches of one size, a metric that averages over data points is reported as its value on the whole validation set; with a shorter last batch it is not. Metrics that share a __name__ overwrite each other (the last is kept), a metric named \"loss\" replaces the loss, and a name used for both a training and a validation entry makes train raise TypeError at its end.", "quantifier": "all numbers of epochs and batches, all patterns of validation, all metrics, names, losses, predictions and targets", "why_tests_cant": "Tests check a few metric names with even batches; the statement is about every combination of names, batch sizes and validation patterns.", "anchors": ["fortuna/training/trainer.py:TrainerABC.training_step_end", "fortuna/training/trainer.py:TrainerABC.compute_metrics", "fortuna/training/trainer.py:TrainerABC._get_mean_losses_and_metrics", "fortuna/training/trainer.py:TrainerABC.train", "fortuna/prob_model/posterior/map/map_trainer.py:MAPTrainer.validation_step"]}
{"id": "C122", "title": "Training metrics of normalizing flows use aligned predictions and targets", "statement": "On one device, or with one posterior sample, the reported training metric of ADVI is the average over samples of the metric between the predictions of that sample for the batch and the targets of the batch. With at least two devices and two samples it is not: predictions of shape (devices, samples, batch) are reshaped without transposing, and for all such sizes there are predictions that equal the targets for every sample although the reported accuracy is below one.", "quantifier": "all metrics, numbers of devices and samples, batch sizes, predictions and targets", "why_tests_cant": "Multi-device training is not run by the tests, and the misalignment gives plausible numbers, not errors.", "anchors": ["fortuna/prob_model/posterior/normalizing_flow/normalizing_flow_trainer.py:NormalizingFlowTrainer.training_step_end"]}
{"id": "C123", "title": "Validation metrics of output calibrators on several devices", "statement": "On several devices, the training metrics of output calibrators and the validation metrics of regression are computed on the merged batch. The validation metrics of classification are not: targets become a column, so accuracy always raises ValueError, and expected calibration error uses for each bin the fraction of pairs (target in the bin, any prediction) that agree; a perfect and fully confident classifier gets a positive calibration error whenever two classes occur.", "quantifier": "all numbers of devices, batch sizes, outputs, targets, prediction and uncertainty functions", "why_tests_cant": "Multi-device calibration is not run by the tests; the broadcast is silent and depends on the shape of the targets only.", "anchors": ["fortuna/training/output_calibrator.py:MultiDeviceMixin.val_metrics_step", "fortuna/training/output_calibrator.py:OutputCalibratorABC.training_step_end", "fortuna/output_calib_model/output_calib_model_calibrator.py:MultiDeviceMixin.val_metrics_step", "fortuna/metric/classification.py:accuracy", "fortuna/metric/classification.py:compute_counts_confs_accs"]}
{"id": "C124", "title": "Sequence classification loaders pair every text with its label", "statement": "A pass over a loader of a sequence classification dataset visits every row once (except the incomplete last batch with drop_last), in the order of the permutation when shuffling. Each batch consists of the token ids of its texts, padded to the longest text of the batch or to max_length, and of the labels of the same texts (None without target column). Without padding, texts of different lengths in one batch raise ValueError. num_unique_labels computed from a full pass is the number of distinct labels; with drop_last it can be smaller. All passes over a shuffled loader use the same order.", "quantifier": "all tokenizers, texts, labels, batch sizes, permutations, padding modes and slice sizes of Dataset.map", "why_tests_cant": "tests use a few rows and one tokenizer; alignment of texts and labels under every permutation and batch size is not checked", "anchors": ["fortuna/data/dataset/huggingface_datasets.py:HuggingFaceSequenceClassificationDataset", "fortuna/data/dataset/huggingface_datasets.py:_get_data_loader", "fortuna/data/loader/huggingface_loaders.py:HuggingFaceDataLoader"]}
{"id": "C125", "title": "Multiple choice loaders keep the choices of an example together", "statement": "For a multiple choice dataset whose examples all have num_unique_labels choices, a pass delivers for each example one padded row per choice, tokenized from the context and the header joined with that choice, together with the label of the example; the width is the longest sequence of the batch rounded up to the multiple. Claim refuted: examples with other numbers of choices are not rejected when the totals agree, and choices of one example are then paired with the context of another. Claim refuted: max_length bounds the sequences. A split without target column raises KeyError, a missing num_unique_labels raises TypeError.", "quantifier": "all tokenizers, examples, labels, batch sizes, permutations, padding multiples and slice sizes of Dataset.map", "why_tests_cant": "tests use a few examples with the right number of choices", "anchors": ["fortuna/data/dataset/huggingface_datasets.py:HuggingFaceMultiChoiceDataset", "fortuna/data/dataset/data_collator.py:FlaxDataCollatorForMultipleChoice"]}
{"id": "C126", "title": "Language model loaders lose no information about the chunks they deliver", "statement": "The rows of a language model dataset are consecutive chunks of max_length tokens of the concatenated texts of each slice passed by Dataset.map, dropping fewer than max_length tokens per slice. A pass delivers every chunk once, padded to the multiple; with masking the original tokens can be read off from inputs and labels, and special tokens and padding are neither changed nor labelled; without masking the labels equal the inputs except -100 at pad tokens. Without a mask token no masked batch is produced. Claim refuted: fewer than max_length tokens of the dataset are lost.", "quantifier": "all tokenizers, texts, random draws, batch sizes, permutations, padding multiples and slice sizes", "why_tests_cant": "masking is random and tests look at one draw on short texts within one slice", "anchors": ["fortuna/data/dataset/huggingface_datasets.py:HuggingFaceMaskedLMDataset", "fortuna/data/dataset/data_collator.py:FlaxDataCollatorForLanguageModeling"]}
{"id": "C127", "title": "Spectral normalisation over a training run: plain networks converge to the bound, transformers never normalise", "statement": "For a plain network, n training calls on a kernel give the kernel and stored vectors of one call with n times the power iterations, evaluation applies the kernel of the training call before it, and if the stored vector is not (nearly) orthogonal to the kernel's leading singular direction, the effective gain becomes at most the bound plus any positive margin after finitely many training calls. For the SNGP transformers the stored vectors keep their initial values in every sequence of calls; kernels with |u||v|gain <= bound are applied unchanged, and gains above the bound persist however long the training (refuted).", "quantifier": "every kernel, stored vectors, number of iterations, bound, and sequence of training and evaluation calls", "why_tests_cant": "Convergence concerns all real kernels and unbounded runs; the missing train flag shows only through gains over a whole training.", "anchors": ["fortuna/model/utils/spectral_norm.py:SpectralNormalization", "fortuna/model/utils/spectral_norm.py:WithSpectralNorm", "fortuna/model/mlp.py:MLPDeepFeatureExtractorSubNet", "fortuna/prob_model/posterior/sngp/transformers/models/modeling_flax_bert.py:FlaxSNGPBertExtractorForSequenceClassificationModule"]}
{"id": "C128", "title": "Pretrained SNGP transformers are loaded with every pretrained weight, fresh values for missing ones, and separate collections", "statement": "The class is the one named by the first matching architecture (plain, TF- or Flax-prefixed), else the first supported; the shipped mapping accepts exactly bert, distilbert and roberta configurations. Loaded parameters are regrouped into 'params', non-empty 'spectral_stats' and 'batch_stats' with nothing lost, inverting the merge made at initialisation. Weights missing from a checkpoint get their fresh values and all others keep theirs. A call with given parameters passes exactly these and the mutable collections and leaves the model unchanged; without parameters the model's own collections are overwritten for later calls. The SNGP manager's initial variables contain the process's variables and the model's where they do not clash; feature arrays with more than one axis are rejected. Logits, arrays and first tuple entries are the outputs; with mutable variables in training logits are not extracted.", "quantifier": "every mapping, architecture list, parameter tree, checkpoint, mutable collections and model output", "why_tests_cant": "All nested parameter dictionaries and partial checkpoints.", "anchors": ["fortuna/prob_model/posterior/sngp/transformers/auto_factory.py:_get_model_class", "fortuna/prob_model/posterior/sngp/transformers/auto_factory.py:_BaseAutoSNGPModelClass", "fortuna/prob_model/posterior/sngp/transformers/models/modeling_flax_bert.py:FlaxSNGPBertExtractorForSequenceClassification", "fortuna/model/model_manager/transformers/classification.py:SNGPHuggingFaceClassificationModelManager", "fortuna/model/model_manager/transformers/classification.py:HuggingFaceClassificationModelManager"]}
{"id": "C129", "title": "Parts and random generators of probabilistic models", "statement": "The constructors of ProbClassifier and ProbRegressor choose the posterior by the class of the approximator. A classifier has an SNGP head, with the keyword arguments of the approximator, exactly when the approximator is SNGP; it uses the transformers manager exactly when the model is a pretrained Flax transformer; and it masks labels exactly when the class is one of the masked language models. SNGP resets the covariance with the ridge penalty of the approximator; a regressor accepts the SNGP approximator but its fit raises AttributeError. In any program that builds models and draws keys from their components, every component can draw, the keys drawn from one generator are its stream, and every component but the prior uses the generator of its model. A model whose prior no other model uses draws keys that depend on its seed only. A prior uses the generator of the last model built with it, so that models with the default prior interfere.", "quantifier": "all approximators, networks, keyword arguments, and all finite programs of constructions and draws with any seeds and priors", "why_tests_cant": "Tests build one model at a time in a process; interference through the shared default argument needs several models and particular orders of draws.", "anchors": ["fortuna/prob_model/classification.py:ProbClassifier", "fortuna/prob_model/regression.py:ProbRegressor", "fortuna/prob_model/base.py:ProbModel", "fortuna/utils/random.py:RandomNumberGenerator", "fortuna/model/model_manager/name_to_model_manager.py:ClassificationModelManagers", "fortuna/prob_model/posterior/posterior_approximations.py:PosteriorApproximations", "fortuna/prob_model/posterior/sngp/sngp_posterior.py:SNGPPosterior"]}
{"id": "C130", "title": "Checks of data loaders against the network", "statement": "A classifier accepts an array loader exactly when it has a label and the number of different labels equals the number of outputs of the network; so a loader with labels in range but one class missing is rejected, and one with labels out of range can be accepted. Inputs given as dictionaries raise TypeError with a plain network. An accepted check advances the generator of the model by exactly two keys. A regressor without mutable variables accepts a loader exactly when the targets of the first batch have a positive second dimension that equals the outputs of both networks; later batches are not looked at; one-dimensional targets raise IndexError, empty loaders ValueError; networks with mutable variables are always rejected. In train, a rejected training loader leaves the posterior as it was; calibration and validation loaders are checked only after the fit, whose state stays when the check raises, and a validation loader is not checked without a calibration loader.", "quantifier": "all networks, loaders, labels, shapes and generators; all checks, fits and calibrations for the order of the calls", "why_tests_cant": "Tests use loaders that contain every class and models without batch statistics in regression; the rejected and wrongly accepted loaders are whole families of data.", "anchors": ["fortuna/prob_model/classification.py:ProbClassifier", "fortuna/prob_model/regression.py:ProbRegressor", "fortuna/prob_model/base.py:ProbModel", "fortuna/data/loader/base.py:BaseDataLoaderABC", "fortuna/data/loader/array_loaders.py:DataLoader", "fortuna/model/model_manager/regression.py:RegressionModelManager"]}
{"id": "C131", "title": "Initial state of the joint distribution", "statement": "The initial state splits the variables of the network into parameters and mutable collections so that the network later receives, under every name, exactly what its init made; the mutable part is None exactly when every network has only parameters; a network without parameters raises KeyError. Joint.init takes two keys from the generator, with which the network and the output calibrator are initialised under pairwise different keys; the calibrator is initialised with the number of outputs of the network, and without a calibrator its entries are None. The inputs used are one row of the shape of the data. The variance network of a regressor gets the same key for its parameters and for dropout.", "quantifier": "all networks, variable collections, calibrators, input shapes and generators", "why_tests_cant": "Tests check a few networks; losing or mixing a collection shows only for networks with particular combinations of collections.", "anchors": ["fortuna/prob_model/joint/base.py:Joint", "fortuna/prob_model/joint/state.py:JointState", "fortuna/model/model_manager/state.py:ModelManagerState", "fortuna/output_calibrator/output_calib_manager/base.py:OutputCalibManager", "fortuna/output_calibrator/output_calib_manager/state.py:OutputCalibManagerState", "fortuna/model/model_manager/classification.py:ClassificationModelManager", "fortuna/model/model_manager/regression.py:RegressionModelManager", "fortuna/utils/data.py:get_inputs_from_shape"]}
{"id": "C132", "title": "Monitors are validated when built, and configure early stopping of every fit and calibration as documented except for metrics to be maximised", "statement": "FitMonitor, CalibMonitor and Monitor accept metrics exactly when they are None or a tuple of callables (and, for the last two, an uncertainty_fn that is None or callable) and raise ValueError otherwise. A validation dictionary has exactly the keys \"val_loss\" and \"val_\" followed by the name of a metric. With early_stopping_patience None or not positive, with SWAG, or without validation data, a fit runs every epoch and the monitored name and delta have no effect. Otherwise a MAP, ADVI, deep ensemble, SGHMC or cyclical SGLD fit or a calibration stops exactly at the first validation that makes the monitored entry stall for more than patience validations, and raises KeyError at the first validation if the entry does not exist. A monitored entry that always drops by more than the delta never stops a run. No configuration can ask for a metric to be maximised: an entry that never decreases stops the run after patience + 2 validations.", "quantifier": "all arguments of the constructors, all kinds of fit and calibration, all monitor configurations, metric names, models, optimizers and callbacks (arbitrary functions), data, numbers of epochs and validation frequencies", "why_tests_cant": "the rule concerns every history of validation values of every length and every patience; the existing tests only check the mixin on a few short histories and never pass a metric to be maximised through a posterior", "anchors": ["fortuna/prob_model/fit_config/monitor.py:FitMonitor", "fortuna/prob_model/calib_config/monitor.py:CalibMonitor", "fortuna/calib_model/config/monitor.py:Monitor", "fortuna/training/mixin.py:WithEarlyStoppingMixin", "fortuna/prob_model/posterior/map/map_posterior.py:MAPPosterior.fit", "fortuna/prob_model/posterior/normalizing_flow/advi/advi_posterior.py:ADVIPosterior.fit", "fortuna/prob_model/posterior/deep_ensemble/deep_ensemble_posterior.py:DeepEnsemblePosterior.fit", "fortuna/prob_model/posterior/sgmcmc/sghmc/sghmc_posterior.py:SGHMCPosterior.fit", "fortuna/prob_model/posterior/sgmcmc/cyclical_sgld/cyclical_sgld_posterior.py:CyclicalSGLDPosterior.fit", "fortuna/prob_model/posterior/swag/swag_posterior.py:SWAGPosterior.fit"]}
{"id": "C133", "title": "What a data loader says about its data does not depend on earlier uses of the loader when its source starts again with every pass, and does otherwise", "statement": "For a loader whose source gives the same batches in every pass (a list, arrays, a callable or a framework loader without reshuffling), every sequence of reading size, len, truth value, num_unique_labels, input_shape, arrays or the batches gives answers that depend on the batches only: number of rows, number of batches, whether there are batches, number of different labels (ValueError without batches), shape of the first batch (UnboundLocalError without batches), all rows in order, the batches. Inputs and targets views read together give back the batches. A source that is called anew gives the batches of the next call in every pass. num_unique_labels never changes once it was read. tf and torch batches are converted one by one, keeping order and dictionary keys; dictionary targets raise AttributeError. A loader of an iterator or generator answers as if it had no batches after any reading but input_shape; input_shape loses its first batch, or for a generator all batches; and views of it, or of a loader that shuffles in every pass, pair inputs and targets of different batches.", "quantifier": "all lists of batches, all sources (including arbitrary functions of the call number), all sequences of operations on the loader", "why_tests_cant": "the claim is about every sequence of operations and every source; the existing tests read single properties of a few loaders built from arrays", "anchors": ["fortuna/data/loader/utils.py:IterableData", "fortuna/data/loader/base.py:BaseDataLoaderABC.size", "fortuna/data/loader/base.py:BaseDataLoaderABC.__len__", "fortuna/data/loader/array_loaders.py:DataLoader.num_unique_labels", "fortuna/data/loader/array_loaders.py:DataLoader.input_shape", "fortuna/data/loader/array_loaders.py:DataLoader.to_array_data", "fortuna/data/loader/array_loaders.py:DataLoader.to_inputs_loader", "fortuna/data/loader/array_loaders.py:DataLoader.to_targets_loader"]}
{"id": "C134", "title": "Training works on the batches of the loaders it is given when these can be passed over repeatedly", "statement": "Training a classifier or regressor by MAP from a fresh state on a loader with the same batches in every pass uses exactly these batches in every epoch and their number of rows as data set size, or raises ValueError when the number of outputs is not the number of different labels (twice the number of targets), when there are no rows (no batches or no target columns). When the loader is called anew in every pass, the epochs use the calls after the first five (three for regressors), and the size is that of the call before. Validation uses the batches of the validation loader in every validation and raises TypeError when there are none. A calibration loader with batches is passed on to calibration unchanged; one without batches is treated as if it was not given. On loaders of iterators or generators, training a classifier always raises ValueError, training a regressor or fitting with at least one epoch raises UnboundLocalError or TypeError, validating raises TypeError, and calibration is given a loader that has no batches left.", "quantifier": "all batches, sources, models (any number of outputs as a function of the shape), numbers of epochs and validations", "why_tests_cant": "tests train on a few array loaders, for which every pass is the same", "anchors": ["fortuna/prob_model/classification.py:ProbClassifier.train", "fortuna/prob_model/classification.py:ProbClassifier._check_output_dim", "fortuna/prob_model/regression.py:ProbRegressor.train", "fortuna/prob_model/regression.py:ProbRegressor._check_output_dim", "fortuna/prob_model/base.py:ProbModel.train", "fortuna/prob_model/posterior/map/map_posterior.py:MAPPosterior.fit", "fortuna/training/trainer.py:TrainerABC.train"]}
{"id": "C135", "title": "Reading a checkpoint gives back the state that was written, and conversions between states keep its parameters", "statement": "For every state of a posterior with all its fields and its class name: restoring its checkpoint gives a state of the same class with the same value at every position of every field, except accumulated gradients (None); parameters and collections are frozen dictionaries; given an optimizer the state uses it and the optimizer state is its initialisation at the restored parameters (the step is kept), without one the optimizer state is the saved one. The same holds for CalibState and OutputCalibState through their own readers and, for OutputCalibState, through the posterior reader. A missing path or a directory without checkpoint raises ValueError, an unknown class name KeyError. init takes values from its keywords and defaults for the others; unknown keywords raise TypeError except for CalibState, which drops them; no optimizer and no optimizer state raises AttributeError except for OutputCalibState. Converting to a SWAG, SGHMC or cyclical SGLD state keeps parameters, mutable variables and calibration variables exactly and starts with step 0, a fresh optimizer state, no loss scaling and its own class name; states without these fields raise AttributeError. replace/update changes the given fields only, unknown ones raise TypeError. Refuted: OutputCalibState with mutable None can be saved but not read; a CalibState checkpoint carries the name of its base class, so posteriors raise KeyError and the base reader returns None; calibration models silently accept the checkpoints of posteriors.", "quantifier": "all states, field values (trees of any depth), optimizers and optimizer initialisations, checkpoints and keyword dictionaries", "why_tests_cant": "tests restore a few states and compare a few fields; the claim is about all values of all fields of all classes and every mismatch of writer and reader", "anchors": ["fortuna/training/mixin.py:WithCheckpointingMixin.save_checkpoint", "fortuna/training/mixin.py:WithCheckpointingMixin.restore_checkpoint", "fortuna/training/train_state.py:TrainState", "fortuna/prob_model/posterior/state.py:PosteriorState.init", "fortuna/prob_model/posterior/state.py:PosteriorState.init_from_dict", "fortuna/prob_model/posterior/posterior_mixin.py:WithPosteriorCheckpointingMixin.restore_checkpoint", "fortuna/prob_model/posterior/name_to_posterior_state.py:NameToPosteriorState", "fortuna/calib_model/state.py:CalibState.init_from_dict", "fortuna/calib_model/calib_mixin.py:WithCalibCheckpointingMixin.restore_checkpoint", "fortuna/output_calib_model/state.py:OutputCalibState.init_from_dict", "fortuna/output_calib_model/output_calib_mixin.py:WithOutputCalibCheckpointingMixin.restore_checkpoint", "fortuna/prob_model/posterior/swag/swag_state.py:SWAGState.convert_from_map_state", "fortuna/prob_model/posterior/sgmcmc/sghmc/sghmc_state.py:SGHMCState.convert_from_map_state", "fortuna/prob_model/posterior/sgmcmc/cyclical_sgld/cyclical_sgld_state.py:CyclicalSGLDState.convert_from_map_state"]}
{"id": "C136", "title": "Training can be interrupted and resumed any number of times when the class name of the state is short and precision is full", "statement": "For states of posteriors whose class name has at most ten characters, every sequence of jitted training steps and of saving and restoring (with or without an optimizer) succeeds, keeps the class, and leaves every field a step does not set unchanged at every position, except accumulated gradients and, when an optimizer was given, the optimizer state. For all classes of posteriors, any number of steps of a fresh state followed by any number of restorations succeeds. Training without loss scaling stays so. Refuted: for class names of more than ten characters (OutputCalibState, PosteriorState, LaplaceState, CyclicalSGLDState), restoring, one jitted step and restoring again raises KeyError, since jax sorts the keys of the restored name; a state with loss scaling (half precision) is restored with a dictionary in its place, and the next training step raises AttributeError.", "quantifier": "all states, all sequences of steps and restorations, all optimizers", "why_tests_cant": "the claim is about arbitrarily long sequences of resuming; tests resume at most once and in full precision", "anchors": ["fortuna/training/mixin.py:WithCheckpointingMixin.restore_checkpoint", "fortuna/training/trainer.py:TrainerABC.training_step", "fortuna/training/trainer.py:JittedMixin.training_step", "fortuna/utils/strings.py:convert_string_to_tuple", "fortuna/prob_model/base.py:ProbModel._calibrate", "fortuna/prob_model/posterior/map/map_posterior.py:MAPPosterior.fit"]}
{"id": "C137", "title": "Predictive averages see the same posterior draws in every batch and on every device", "statement": "Predictive.mean, aleatoric_variance, epistemic_variance, variance, sample_calibrated_outputs and the entropies of regression give every row a value that is a function of the row, the key of the call and the number of posterior draws alone: the value is the average (or spread) over the draws made with split(key, n), whatever the batches and devices. An explicit key is used as it is and leaves the generator alone, otherwise the generator advances once. mean averages the outputs that sample_calibrated_outputs returns for the same key, and with one key the entropies of regression add up exactly. variance draws its two parts with two different keys and uses parts it is given unchanged. The loader of raw outputs splits the key of a draw over devices, so its outputs do depend on distribution (refuted).", "quantifier": "all keys, generators, posteriors, row-wise models, numbers of draws, loaders, divisible distributions and both ways jax splits keys", "why_tests_cant": "a test runs one batching on one device with one seed; independence of batching is a statement about all pairs of batchings", "anchors": ["fortuna/prob_model/predictive/base.py:Predictive.mean", "fortuna/prob_model/predictive/base.py:Predictive.variance", "fortuna/prob_model/predictive/base.py:Predictive._loop_fun_through_inputs_loader", "fortuna/prob_model/predictive/base.py:Predictive._sample_outputs_loader", "fortuna/prob_model/predictive/regression.py:RegressionPredictive.entropy", "fortuna/utils/random.py:RandomNumberGenerator.get"]}
{"id": "C138", "title": "Target samples of the predictive distribution", "statement": "Without a key, Predictive.sample gives n_target_samples values for every row, each from its own posterior draw and its own noise key. Rows of one batch use different keys in classification. Refuted claims of the interface: an explicit key always raises ValueError, also from quantile and credible_interval; rows at the same position of two batches of equal size share their noise, so equal rows get equal targets in every sample and results depend on the batching; return_aux=['outputs'] returns no outputs, stacks the batches along the axis of the samples, and raises for batches of different sizes.", "quantifier": "all generators, posteriors, models, noise functions, numbers of samples, loaders, positions and both ways jax splits keys", "why_tests_cant": "tests use one batch and no key; repeated noise across batches looks like ordinary random numbers in any single output", "anchors": ["fortuna/prob_model/predictive/base.py:Predictive.sample", "fortuna/prob_model/predictive/base.py:Predictive._batched_sample", "fortuna/likelihood/base.py:Likelihood._batched_sample", "fortuna/prob_output_layer/classification.py:ClassificationProbOutputLayer.sample", "fortuna/prob_output_layer/regression.py:RegressionProbOutputLayer.sample", "fortuna/prob_model/predictive/regression.py:RegressionPredictive.quantile"]}
{"id": "C139", "title": "Independence of the random numbers of successive calls", "statement": "The keys a single call draws from are never derived from one another. Over any sequence of predictive calls and trainings that take their keys from the shared generator, all keys drawn from are underived from one another provided no call's number of draws makes its split that of the generator and no two variances follow each other; results depend on the posterior and the noise at these keys only. Refuted otherwise, because the generator hands out its own state: two variances in a row share draws; an average over as many draws as the generator's split draws from the key the next call starts from; sample then an average, and an entropy then an average, use the same keys.", "quantifier": "all sequences of calls, numbers of draws, generators and both ways jax splits keys", "why_tests_cant": "correlation between calls is invisible in each call; it needs a statement about all histories", "anchors": ["fortuna/utils/random.py:RandomNumberGenerator.get", "fortuna/prob_model/predictive/base.py:Predictive.variance", "fortuna/prob_model/predictive/base.py:Predictive._batched_sample", "fortuna/prob_model/predictive/regression.py:RegressionPredictive.aleatoric_entropy", "fortuna/training/trainer.py:TrainerABC.training_step_start"]}
{"id": "C140", "title": "Every parameter leaf and every step of a stochastic gradient sampler has its own noise", "statement": "generate_rng_like_tree gives the leaves of a tree the keys of split(key, number of leaves), numbered in the order of their sorted paths, and keeps the structure; generate_random_normal_like_tree never fails on it and puts at every leaf a normal array of that leaf's shape drawn from that leaf's key. Runs of the SGHMC and cyclical SGLD integrators on one entry of one leaf are the textbook recursions driven by the normal numbers of the keys split(k_t)[0] split over leaves, with k_(t+1) = split(k_t)[1]; cyclical SGLD takes a new key at noisy steps only. No two of these keys, over all steps and leaves, are equal or derived from one another, and a run depends on the random numbers at these keys only.", "quantifier": "all trees with unique keys, keys, step schedules, preconditioners, gradients, numbers of leaves and steps, and both ways jax splits keys", "why_tests_cant": "a test checks shapes or one seed; that no noise is ever shared between leaves or steps is a statement about all runs", "anchors": ["fortuna/utils/random.py:generate_rng_like_tree", "fortuna/utils/random.py:generate_random_normal_like_tree", "fortuna/prob_model/posterior/sgmcmc/sghmc/sghmc_integrator.py:sghmc_integrator", "fortuna/prob_model/posterior/sgmcmc/cyclical_sgld/cyclical_sgld_integrator.py:cyclical_sgld_integrator"]}
{"id": "C141", "title": "Random numbers of initialisations, samplers, flows, trainings, predictions and posterior draws that share one generator", "statement": "Every single request to the shared generator (initialisation of networks, calibrators or flows, a sampler's run, training, training of a normalizing flow, a predictive call) draws from keys none of which is derived from another. For any sequence of such requests, all keys drawn from are underived from one another provided no request splits its key the way the generator does and neighbours do not split alike; drawing from a MAP, Laplace, SWAG, ADVI, ensemble or sampler posterior with any of these keys keeps that. Refuted: drawing directly from the generator's key (prior.sample, or sample of an ensemble or sampler posterior without a key) is followed by requests all of whose keys derive from it; a sampler whose number of leaves is split like the generator's draws noise from the key the second next request starts from.", "quantifier": "all sequences of requests, sizes, generators and both ways jax splits keys", "why_tests_cant": "shared keys between different parts of a program are invisible in each output; needs all histories", "anchors": ["fortuna/utils/random.py:RandomNumberGenerator.get", "fortuna/prob_model/posterior/swag/swag_posterior.py:SWAGPosterior.sample", "fortuna/prob_model/posterior/laplace/laplace_posterior.py:LaplacePosterior.sample", "fortuna/prob_model/posterior/normalizing_flow/advi/advi_posterior.py:ADVIPosterior.sample", "fortuna/prob_model/posterior/deep_ensemble/deep_ensemble_posterior.py:DeepEnsemblePosterior.sample", "fortuna/prob_model/posterior/sgmcmc/sgmcmc_posterior.py:SGMCMCPosterior.sample"]}
{"id": "C142", "title": "Random numbers of whole fits", "statement": "Over any sequence of fits (MAP, SWAG, Laplace, deep ensembles, SGHMC or cyclical SGLD, ADVI) and calibrations that share one generator, followed by any proper sequence of requests, all keys drawn from are underived from one another, provided the numbers of leaves of samplers and of calibration draws are not split like the generator and, for a sampler that has to initialise its parameters, not like the initialisation. So each ensemble member starts from its own initial parameters and keys, three uses of the generator after the previous one. The loss of a flow on validation data uses one key for all batches and epochs. Refuted without the proviso: a sampler of a classifier with three parameter leaves draws the first step's noise of one leaf from the very key that initialised the network.", "quantifier": "all sequences of fits, starting points, sizes, steps, generators and both ways jax splits keys", "why_tests_cant": "no output shows that two random streams coincide; needs all orders of fits", "anchors": ["fortuna/prob_model/posterior/map/map_posterior.py:MAPPosterior.fit", "fortuna/prob_model/posterior/swag/swag_posterior.py:SWAGPosterior.fit", "fortuna/prob_model/posterior/deep_ensemble/deep_ensemble_posterior.py:DeepEnsemblePosterior.fit", "fortuna/prob_model/posterior/sgmcmc/sghmc/sghmc_posterior.py:SGHMCPosterior.fit", "fortuna/prob_model/posterior/normalizing_flow/advi/advi_posterior.py:ADVIPosterior.fit", "fortuna/prob_model/joint/base.py:Joint.init", "fortuna/prob_model/posterior/run_preliminary_map.py:run_preliminary_map"]}
{"id": "C143", "title": "Estimators of a likelihood are computed row by row from the calibrated outputs", "statement": "At fixed parameters, outputs, mean, mode, variance, standard deviation, entropy and log-probability of a classification or regression likelihood are, for every row of the loader and however the rows are batched or spread over devices, those of the categorical or normal distribution given by the calibrated outputs of that row; loaders without batches, or with batches the devices cannot share, raise ValueError. With an odd number of outputs the regression mean and variance do not raise and have different widths (finding), and a calibrator that looks at the whole array gives mean and outputs that disagree (finding).", "quantifier": "every row-wise network and calibrator, every batching, every number of devices, all real outputs and targets", "why_tests_cant": "All cuts of the data into batches and all real-valued outputs; agreement of six estimators with one distribution.", "anchors": ["fortuna/likelihood/base.py:Likelihood", "fortuna/likelihood/classification.py:ClassificationLikelihood", "fortuna/likelihood/regression.py:RegressionLikelihood"]}
{"id": "C144", "title": "Samples and sampled entropies of a likelihood", "statement": "Likelihood.sample draws, for every row, from the distribution of its calibrated output, after all batches are concatenated: every row of a classification batch has its own key, independent of those of the other rows, and a regression sample is mean plus standard deviation times its own normal number, whatever the batching; the outputs asked for are those drawn from; unknown auxiliary names and bad loaders are refused without using the generator. The sampled regression entropy is the exact normal entropy plus half the deviation of the mean squared noise from its expectation. Successive classification calls have independent keys when a split into as many keys as there are rows differs from a split into two; otherwise the first row is drawn with the key of the next call, and the key of a regression call is always the parent of that of the next (findings).", "quantifier": "every row-wise network, batching, number of samples, key or generator state, every noise function", "why_tests_cant": "Holds for every outcome of the random numbers and every way of batching; key collisions do not show in outputs.", "anchors": ["fortuna/likelihood/base.py:Likelihood.sample", "fortuna/likelihood/regression.py:RegressionLikelihood.entropy", "fortuna/prob_output_layer/classification.py:ClassificationProbOutputLayer.sample", "fortuna/prob_output_layer/regression.py:RegressionProbOutputLayer.sample"]}
{"id": "C145", "title": "Quantiles and credible intervals at fixed parameters", "statement": "RegressionLikelihood.quantile returns for every row, component and level the linearly interpolated order statistics of the samples, that is mean plus standard deviation times the quantile of the noise; more than q (m - 1) samples are at most the q-quantile and more than (1 - q)(m - 1) are at least it. credible_interval of a calibration model has one ordered pair (or one bound) per row at levels error/2 and 1 - error/2 (or error, or 1 - error), and the two-tailed interval holds more than (1 - error)(m - 1) - 1 of the m samples; unknown types and vector targets raise ValueError. A python list of levels, although documented, raises TypeError (finding).", "quantifier": "every row-wise network, loader, noise, number of samples >= 1, error level between 0 and 1", "why_tests_cant": "All samples and levels, including positions that fall between samples.", "anchors": ["fortuna/likelihood/regression.py:RegressionLikelihood.quantile", "fortuna/calib_model/predictive/regression.py:RegressionPredictive.credible_interval", "fortuna/calib_model/predictive/regression.py:RegressionPredictive.quantile"]}
{"id": "C146", "title": "Predictions of a calibration model are those of its likelihood at the stored state", "statement": "Every predictive method of a calibration model raises AttributeError before there is a state, without using the generator, and afterwards is computed from the parameters and mutable objects of that state: means, modes, variances, standard deviations, entropies, log-probabilities and samples are those of the distribution given by the outputs of each row.", "quantifier": "every state, row-wise network, loader, batching and number of devices", "why_tests_cant": "All states, batchings and noise.", "anchors": ["fortuna/calib_model/predictive/base.py:Predictive", "fortuna/calib_model/predictive/classification.py:ClassificationPredictive", "fortuna/calib_model/predictive/regression.py:RegressionPredictive"]}
{"id": "C147", "title": "Tuning the prior of a Laplace posterior returns the best candidate by validation log-likelihood", "statement": "At the end of a Laplace fit with validation data, the prior log-variance that is stored is the one, among the twenty points of the even grid on [-3, 3] and the log-variance of the prior, whose posterior gives the validation data the greatest log-likelihood (the log of the average likelihood of five draws, summed over the data points); among equal ones the first. A draw is the mean plus noise over the root of the precision exp(-log-variance) + curvature. The claim holds on one device with a scalar prior and a first candidate of positive precision. It fails, and what happens instead is proved, when computation is not distributed or there are several devices (fit raises, the prior stays stored), when the prior has a log-variance per parameter and is best (TypeError), and when the precision of the first candidate is not positive (the first candidate is returned, whatever the others score).", "quantifier": "for all means, curvatures, log-likelihood functions, noise functions, validation loaders, priors, grids and numbers of devices", "why_tests_cant": "Tests run one fit on one device and look at no score; the objective is over all data and curvatures, and the failing cases need other numbers of devices, diagonal priors or negative curvature.", "anchors": ["fortuna/prob_model/posterior/laplace/laplace_posterior.py:LaplacePosterior._prior_log_variance_tuning_cv", "fortuna/prob_model/posterior/laplace/laplace_posterior.py:LaplacePosterior._batched_log_prob", "fortuna/prob_model/posterior/laplace/laplace_posterior.py:LaplacePosterior.sample", "fortuna/prob_model/posterior/laplace/laplace_posterior.py:LaplacePosterior.fit"]}
{"id": "C148", "title": "Samples of inputs, targets and data loaders take the same rows", "statement": "The batches that sample(seed, n) of a loader of inputs, of targets or of data yields contain, in order, the first n of the rows that the masks of the generator select while passing over the loader again and again; no batch is empty; if the passes so far select fewer than n rows, sampling goes on. With the same masks, the inputs sampled from an inputs loader and the targets sampled from a targets loader are the two components of the sample of the data loader. The documented sampling 'with replacement' does not hold within a pass: if one pass selects at least n rows, no row is sampled twice.", "quantifier": "for all loaders, batch sizes, masks, sample sizes and numbers of passes", "why_tests_cant": "Tests check the size of one sample with one seed; the rows, their order over batches and passes and the alignment of three methods are over all masks.", "anchors": ["fortuna/data/loader/array_loaders.py:InputsLoader.sample", "fortuna/data/loader/array_loaders.py:TargetsLoader.sample", "fortuna/data/loader/array_loaders.py:DataLoader.sample"]}
{"id": "C149", "title": "A frozen optimizer trains the trainable parameters as if they were the only ones", "statement": "After any number of steps with the optimizer that freeze_optimizer returns, every parameter labelled 'frozen' has its initial value, and the parameters labelled 'trainable' have the values that the original optimizer, given only these parameters and their gradients (with the frozen ones at their initial values), reaches. freeze_optimizer accepts exactly the functions whose labels are 'trainable' or 'frozen' on all parameters, and raises ValueError otherwise; without a function it returns the optimizer itself.", "quantifier": "for all optimizers with any state, parameter trees, label functions, gradients as functions of the parameters and numbers of steps", "why_tests_cant": "The function has no test; optimizers that combine gradients of different parameters (clipping by the global norm) show a difference only over several steps and for particular gradients.", "anchors": ["fortuna/utils/freeze.py:freeze_optimizer"]}
{"id": "C150", "title": "Two-dimensional uncertainty plots put each value at its point", "statement": "In the figure of plot_2d_classification_predictions_and_uncertainty the cell in row i and column j is at the i-th point of the first axis and the j-th point of the second, and has the value that the uncertainty function gives this point; with a given grid and given values the cells and values are these, in this order, and the grid has as many rows as distinct first coordinates. An axis that is not given has 100 points, or as many as the given one, and goes from 5/4 of the range below the least input to 5/4 above the greatest. Inputs are scattered with one colour, or with the first colour where the prediction is 1 and the second elsewhere. The documented call with only a grid and no inputs raises ValueError, and so does every call that leaves the points or the values open; remove_ticks makes every otherwise valid call raise AttributeError.", "quantifier": "for all inputs, predictions, axes, grids, values and uncertainty functions", "why_tests_cant": "Tests of plots look at no values; a transposed grid or an axis that cuts off inputs is still a figure.", "anchors": ["fortuna/plot.py:plot_2d_classification_predictions_and_uncertainty"]}
{"id": "C151", "title": "Reliability diagrams show each curve's gaps in the order of its confidences", "statement": "plot_reliability_diagram draws one line per pair of accuracies and confidences, with the label of the same index, through exactly the points (confidence, confidence minus accuracy) of all bins, ordered by confidence. Single arrays and a single label are treated as lists of one, empty labels as none. Different numbers of accuracies, confidences and labels raise ValueError, as do two different sizes in one curve, unless there is one accuracy, which stands for all bins, or one confidence, of which a single point with the gap to the first accuracy is drawn.", "quantifier": "for all lists of curves and labels and every argsort that returns a sorting permutation", "why_tests_cant": "Tests of plots look at no values; misordered bins or gaps of the wrong sign are still a figure.", "anchors": ["fortuna/plot.py:plot_reliability_diagram"]}
{"id": "C152", "title": "CV+ intervals miss at most a fold plus twice the error of held-out points", "statement": "Split data in K folds of m points, hold out each fold in turn and build its CV+ intervals from the other K-1 folds (each prediction being made by the model that left out both folds): over all K folds at most m + 2*ceil(error*((K-1)*m-1)) of the K*m targets fall outside their intervals, whatever the data and models; hence at most a share 2*error + (m+2)/(K*m). The share can exceed 2*error (refutation): for every error < 1/(2K) there are data with more misses than 2*error*K*m.", "quantifier": "every number of folds and points per fold, all targets and predictions, every error in [0,1]", "why_tests_cant": "Coverage for all data sets and all predictive models; the extreme cases are adversarial.", "anchors": ["fortuna/conformal/regression/cvplus.py:CVPlusConformalRegressor.conformal_interval"]}
{"id": "C153", "title": "The reliability diagram has one point per bin with data", "statement": "When the binned metrics are asked to plot, and all confidences are positive, the line handed to matplotlib has exactly one point for each confidence bin that contains data, in the order of the bins: its abscissa is the mean confidence of the bin and its ordinate the mean confidence minus the accuracy. Empty bins have count, confidence and accuracy zero and are not shown. Arrays of different lengths are rejected. A bin whose points all have confidence zero is not shown either (refutation of 'every bin with data is shown').", "quantifier": "all predictions, confidences and targets of any size, any argsort", "why_tests_cant": "All data sets; the bins' order and the dropping of empty bins depend on where the confidences fall.", "anchors": ["fortuna/metric/classification.py:compute_counts_confs_accs", "fortuna/plot.py:plot_reliability_diagram"]}
{"id": "C154", "title": "Fits are stochastic gradient descent on the documented objective", "statement": "A successful fit of a MAP posterior (or of a member of a deep ensemble) without gradient accumulation ends with the parameters, optimizer state and mutable variables of stochastic gradient descent on minus (the log-likelihood of the batch scaled by n_data over batch size, plus the log prior), where the outputs are those of the network in training mode with the random key folded in at the step counter, calibrated by the fixed output calibrator, and gradients are clipped by max_grad_norm if positive; it makes one update for every batch of every epoch in order. The reported training metrics of an epoch are the means over its batches of that objective and of the metrics of the predictions at the parameters before each update; the validation metrics are means of objective and metrics at the parameters at the end of the epoch, in evaluation mode without key. A fit of a calibration model without mutable variables is the same for its loss function, with uncertainties passed to the metrics. With some batch, nonempty validation data and a known monitor these fits succeed. Calibration models with mutable variables cannot be fitted (TypeError at the first step), and max_grad_norm and gradient_accumulation_steps have no effect on SWAG and on calibration models.", "quantifier": "all networks, losses, priors, calibrators, metrics, optimizers, differentiation rules, configurations, batches and starting states", "why_tests_cant": "Tests check that fits run and return states; which function is descended, in which mode and with which key, in every step of every run cannot be enumerated, and ignored hyperparameters raise no error.", "anchors": ["fortuna/prob_model/posterior/map/map_trainer.py:MAPTrainer.training_loss_step", "fortuna/prob_model/posterior/map/map_trainer.py:MAPTrainer.validation_step", "fortuna/prob_model/posterior/map/map_posterior.py:MAPPosterior.fit", "fortuna/calib_model/calib_model_calibrator.py:CalibModelCalibrator.training_loss_step", "fortuna/calib_model/calib_model_calibrator.py:CalibModelCalibrator.validation_step", "fortuna/calib_model/base.py:CalibModel._calibrate", "fortuna/calib_model/config/hyperparameters.py:Hyperparameters", "fortuna/prob_model/posterior/swag/swag_posterior.py:SWAGPosterior.fit", "fortuna/training/trainer.py:TrainerABC.train"]}
{"id": "C155", "title": "Calibrations of outputs are gradient descent on the loss of the calibrated outputs", "statement": "For a calibrator without mutable variables, a calibration of given outputs ends with the parameters and optimizer state that one gradient step per epoch on the loss of the calibrated outputs and the targets gives, counts one step per epoch, runs all configured epochs unless early stopping is active, and reports for each epoch the loss and the metrics of the outputs calibrated in training mode with the parameters before the step; the validation rows are of the validation outputs calibrated in evaluation mode with the parameters after it. A calibration of a posterior does one gradient step per batch on minus the logarithm of the mean, over the ensemble of outputs, of the likelihood of the calibrated outputs rescaled to the size of the calibration data, and reports the means over the batches; the validation loss is rescaled to the size of the validation data. Both end without exception on nonempty data. A calibrator with mutable variables cannot be fitted by more than one step, on given outputs or on a posterior: the second step raises AttributeError.", "quantifier": "all calibrators, losses, likelihoods, metrics, optimizers, gradient functions that depend on the loss only through its values, configurations, data, outputs, validation data and starting states", "why_tests_cant": "A test fits one calibrator for a few epochs and sees that the loss goes down; that every parameter update of every epoch is the gradient step of the stated objective, on the outputs of the same batch, in the right mode and with the right data size, is about all runs.", "anchors": ["fortuna/output_calib_model/output_calib_model_calibrator.py:OutputCalibModelCalibrator.training_step", "fortuna/output_calib_model/output_calib_model_calibrator.py:OutputCalibModelCalibrator.training_loss_step", "fortuna/output_calib_model/output_calib_model_calibrator.py:OutputCalibModelCalibrator.val_loss_step", "fortuna/output_calib_model/base.py:OutputCalibModel._calibrate", "fortuna/prob_model/prob_model_calibrator.py:ProbModelOutputCalibrator.training_loss_step", "fortuna/prob_model/prob_model_calibrator.py:ProbModelOutputCalibrator.val_loss_step", "fortuna/training/output_calibrator.py:OutputCalibratorABC.train", "fortuna/prob_model/predictive/base.py:Predictive._batched_negative_log_joint_prob"]}
{"id": "C156", "title": "BatchMVP patches lower the pinball loss, up to one overshoot of the grid", "statement": "The patch BatchMVP chooses for a set of points is a shift of a grid of step 1/(n_buckets-1). Whenever this shift brings the number of covered points of the set nearer to coverage times its size, the total pinball loss (the loss that decides whether the run goes on) rises by at most eta * (number of points by which the coverage still misses) * max(0, 2/(n_buckets-1) - |patch|); in particular it never rises when the patch moves by two grid steps or more. A run that has not converged therefore stops only because the rounds are used up, no set is frequent enough, the validation loss grew, or the patch of the worst set is shorter than two grid steps or no shift of the grid improves its coverage. Shorter patches that improve the coverage can raise the loss and end the run without any patch, and a set whose coverage is already the best possible may be moved to an equally good far shift.", "quantifier": "all calibration and validation data of one dimension with scores in [0,1], all groups, initial values, coverages in [0,1], eta in [0,1], numbers of buckets >= 2, keys and numbers of rounds", "why_tests_cant": "the loss and the patch optimise different quantities on different grids; whether a run gets stuck depends on the data, and a test sees a few data sets only", "anchors": ["fortuna/conformal/multivalid/iterative/batch_mvp.py:BatchMVPConformalMethod._get_patch", "fortuna/conformal/multivalid/iterative/batch_mvp.py:BatchMVPConformalMethod._compute_probability_error", "fortuna/conformal/multivalid/mixins/batchmvp.py:BatchMVPMixin.pinball_loss", "fortuna/conformal/multivalid/iterative/base.py:IterativeMultivalidMethod.calibrate"]}
{"id": "C157", "title": "A fit of SWAG is gradient descent whose iterates are averaged with known weights", "statement": "SWAGPosterior.fit runs, for exactly the requested number of epochs and without early stopping, gradient clipping or accumulation, gradient descent on minus the log joint probability over all batches, starting from the parameters and mutable variables of the preliminary MAP fit with a fresh optimizer state. For each coordinate of the trainable parameters, the fitted mean and second moment are weighted averages of the iterates after each update: with B batches per epoch and E epochs, update i of epoch e has weight e^(B-1-i)(e+1)^i out of E^B, and the columns of deviations are the last `rank` iterates minus the running mean at their update. With one batch per epoch the mean is therefore the plain average; with more it need not be.", "quantifier": "for all networks, priors, output calibrators, log-likelihoods, optimizers, ranks between 2 and the number of epochs, batches, numbers of epochs and initial states for which the fit completes", "why_tests_cant": "Tests check that SWAG runs and shapes are right; the weights of all iterates for every number of batches and epochs, and the equivalence with a MAP run, are statements over all runs.", "anchors": ["fortuna/prob_model/posterior/swag/swag_posterior.py:SWAGPosterior.fit", "fortuna/prob_model/posterior/swag/swag_trainer.py:SWAGTrainer.training_step_end", "fortuna/prob_model/posterior/swag/swag_trainer.py:SWAGTrainer._update_state_with_stats", "fortuna/prob_model/posterior/swag/swag_state.py:SWAGState.convert_from_map_state", "fortuna/prob_model/posterior/run_preliminary_map.py:run_preliminary_map"]}
{"id": "C158", "title": "A fit of SGHMC or cyclical SGLD simulates its dynamics on the log joint probability and keeps the scheduled states", "statement": "SGHMCPosterior.fit and CyclicalSGLDPosterior.fit run the integrator on the gradient of the mini-batch log joint probability of every batch of every epoch, without clipping. With SGHMC each update has momentum decay*m + g*sqrt(h) + noise*sqrt(2(1-decay)) and moves the parameters by the preconditioned momentum times sqrt(h), with the scheduled step size h and noise from a key used only once; with cyclical SGLD updates are gradient ascent in the exploration phase and Langevin steps afterwards. Sample j kept by the posterior is the state after update burnin + (j+1)*thinning (SGHMC), or after the j-th due update (cyclical), and n_samples samples are kept unless training stops early. The reported losses are mean log joint probabilities; early stopping, which waits for lower values, may therefore stop a run that improves at each epoch.", "quantifier": "for all networks, priors, likelihoods, calibrators, integrators, preconditioners, step schedules, batches, numbers of epochs, samples, thinning, burn-in and cycle lengths for which the fit completes", "why_tests_cant": "Tests check that the samplers run and that samples have the right shapes; which state of the trajectory each sample is, and that the trajectory is the documented dynamics on the right gradient, are statements over all runs.", "anchors": ["fortuna/prob_model/posterior/sgmcmc/sghmc/sghmc_posterior.py:SGHMCPosterior.fit", "fortuna/prob_model/posterior/sgmcmc/cyclical_sgld/cyclical_sgld_posterior.py:CyclicalSGLDPosterior.fit", "fortuna/prob_model/posterior/sgmcmc/sgmcmc_sampling_callback.py:SGMCMCSamplingCallback.training_step_end", "fortuna/prob_model/posterior/sgmcmc/sghmc/sghmc_integrator.py:sghmc_integrator", "fortuna/prob_model/posterior/sgmcmc/cyclical_sgld/cyclical_sgld_integrator.py:cyclical_sgld_integrator", "fortuna/prob_model/joint/base.py:Joint._batched_log_joint_prob"]}
{"id": "C159", "title": "A fit of ADVI is gradient descent on the negative evidence lower bound, and the posterior draws from the Gaussian it ends with", "statement": "ADVIPosterior.fit starts from a Gaussian centred at the initial parameters. At each batch it moves the means and the logarithms of the standard deviations along the (possibly clipped) gradient of the average, over n_loss_samples points drawn from the current Gaussian with a part of the key of the step, of minus the mini-batch log joint probability, minus the sum of the logarithms of the standard deviations. Mutable variables are those of the last point. The reported losses and metrics are averages of these over points and batches; validation uses the same random numbers in every batch and epoch. The stored state has the structure of the parameters with exactly the final means and log standard deviations, and sample() returns the parameters mean + exp(log_std) * noise, arranged in the same way as the points of the training loss.", "quantifier": "for all networks, priors, likelihoods, calibrators, random number generators, size-preserving optimizers, batches, numbers of epochs and of points for which the fit completes", "why_tests_cant": "Tests check that ADVI runs and that shapes agree; that the optimised objective is the bound of the very distribution that is sampled afterwards is a statement over all runs and random numbers.", "anchors": ["fortuna/prob_model/posterior/normalizing_flow/normalizing_flow_trainer.py:NormalizingFlowTrainer.training_loss_step", "fortuna/prob_model/posterior/normalizing_flow/normalizing_flow_trainer.py:NormalizingFlowTrainer.validation_step", "fortuna/prob_model/posterior/normalizing_flow/normalizing_flow_trainer.py:NormalizingFlowTrainer.training_step_end", "fortuna/prob_model/posterior/normalizing_flow/advi/advi_posterior.py:ADVIPosterior.fit", "fortuna/prob_model/posterior/normalizing_flow/advi/advi_posterior.py:ADVIPosterior.sample", "fortuna/prob_model/posterior/normalizing_flow/advi/advi_trainer.py:ADVITrainer.on_train_end", "fortuna/prob_model/posterior/normalizing_flow/advi/advi_architecture.py:ADVIArchitecture.forward"]}
{"id": "C160", "title": "A probabilistic model trained, calibrated and queried predicts with the trained and calibrated members", "statement": "After ProbModel.train with a MAP posterior or a deep ensemble, each member holds the end of stochastic gradient descent on its own minus log joint probability from its own start, evaluated through its initial calibrator, for its reported number of epochs. If there is a calibrator and calibration data, the calibration parameters of all members are the end of the descent, from the first member's ones, on minus the log of the likelihood averaged over outputs of trained members drawn with the next key of the generator; otherwise they are unchanged. Predictive mean and variance of every row are then the average, and average plus spread, over members drawn with the keys of the call, of calibrated outputs of the trained members. For MAP they depend on neither keys nor numbers of samples and have no epistemic part. An ensemble of one member is a MAP posterior. Training succeeds on nonempty data with known monitors; calibrating an ensemble of no members raises IndexError.", "quantifier": "all networks, calibrators without mutable variables, optimizers, losses, priors, metrics, configurations without gradient accumulation, data, batches, seeds, sizes of ensembles and numbers of samples", "why_tests_cant": "the composition of fit, calibration and prediction ranges over all models, optimizers, data and keys; tests check shapes of the outputs of one trained model", "anchors": ["fortuna/prob_model/base.py:ProbModel.train", "fortuna/prob_model/base.py:ProbModel._calibrate", "fortuna/prob_model/posterior/deep_ensemble/deep_ensemble_posterior.py:DeepEnsemblePosterior.fit", "fortuna/prob_model/posterior/deep_ensemble/deep_ensemble_posterior.py:DeepEnsemblePosterior.sample", "fortuna/prob_model/posterior/map/map_posterior.py:MAPPosterior.sample", "fortuna/prob_model/posterior/posterior_multi_state_repository.py:PosteriorMultiStateRepository.update", "fortuna/prob_model/posterior/posterior_multi_state_repository.py:PosteriorMultiStateRepository.extract_calib_keys", "fortuna/prob_model/predictive/base.py:Predictive.mean", "fortuna/prob_model/predictive/base.py:Predictive.variance"]}
{"id": "C161", "title": "Whole fits of SNGP posteriors", "statement": "A fit of an SNGP posterior follows gradient descent on minus the log joint probability computed from the unscaled logits, epoch by epoch, with the same numbers of epochs, keys and reports as a MAP fit. The precision matrix it ends with is ridge times the identity plus the sum of the outer products of the features of the last epoch, each feature taken at the parameters in force when its batch was used (with momentum m, the exponentially weighted sum, the ridge having weight m^batches); matrices of earlier epochs and reset callbacks left in the configuration by earlier fits have no influence. Validation reports are computed from logits divided by sqrt(1 + factor * variance), with the variances ridge f' P^-1 f of the epoch just finished, and so are the outputs of the fitted posterior. If training does not change the features, the matrix is that of the whole training data. It need not be the matrix of the training data at the fitted parameters (refuted). A momentum outside [0, 1] or a state without mutable variables raises ValueError; otherwise fits on non-empty loaders succeed.", "quantifier": "all networks, random features, optimizers, losses, calibrators, batches, numbers of epochs, callbacks left in the configuration, ridge penalties and momenta", "why_tests_cant": "The tests fit tiny SNGP models and check that it runs; they cannot relate the stored matrix to the parameters of every update for all networks, loaders and numbers of epochs.", "anchors": ["fortuna/prob_model/posterior/sngp/sngp_posterior.py:SNGPPosterior.fit", "fortuna/prob_model/posterior/sngp/sngp_callback.py:ResetCovarianceCallback.training_epoch_start", "fortuna/model/model_manager/classification.py:SNGPClassificationModelManagerMixin.apply", "fortuna/model/utils/random_features.py:LaplaceRandomFeatureCovariance", "fortuna/training/trainer.py:TrainerABC.train"]}
{"id": "C162", "title": "Whole fits of Laplace posteriors", "statement": "A Laplace fit starts either from parameters that have descended the negative log joint probability for the epochs of the map configuration, or from the point (parameters, or means of an earlier Laplace state, with variables and calibration parameters) of the state it restores or continues, and its status has a map entry in the first case only. Every trainable coordinate is stored with its value at that point and with minus the sum over all training points of D' H D, where D are the partial derivatives of the calibrated outputs along the coordinate and H the Hessian of the log-likelihood in the outputs; frozen coordinates are stored without. If the outputs are affine along a coordinate then prior precision plus stored curvature is the second derivative of the negative log joint probability along it. A concave likelihood gives nonnegative curvatures, so that draws exist for every log-variance. A draw moves each trainable coordinate by standard noise over the square root of exp(-log_var) + curvature, leaves frozen coordinates and variables alone, and predicted means and variances are averages over such draws. With validation data the stored log-variance is the one among twenty grid points and the prior whose own draws give the validation data the highest log-likelihood. Fitting again from the result with the same data changes nothing but the log-variance, which starts again from the prior. A freeze function that freezes everything makes the fit fail with TypeError after the preliminary run; with a diagonal prior and any frozen coordinate the fit ends well but no draw or prediction is possible.", "quantifier": "for all networks, calibrators, likelihoods, optimizers, selections of trainable coordinates, data loaders, starting states, priors, keys and numbers of draws; curvature for every differentiation that is right where partial derivatives exist and every eigendecomposition of the Hessians that occur", "why_tests_cant": "tests fit one small network for two epochs and check that sampling runs; the formula of the curvature, its exactness for affine outputs, and the optimality of the tuning are statements about all networks, data sets and parameters, and the failing combinations of freezing and priors are not tried", "anchors": ["fortuna/prob_model/posterior/laplace/laplace_posterior.py:LaplacePosterior.fit", "fortuna/prob_model/posterior/laplace/laplace_posterior.py:LaplacePosterior._gnn_approx", "fortuna/prob_model/posterior/laplace/laplace_posterior.py:LaplacePosterior.sample", "fortuna/prob_model/posterior/laplace/laplace_posterior.py:LaplacePosterior._init_map_state", "fortuna/prob_model/posterior/laplace/laplace_state.py:LaplaceState.convert_from_map_state", "fortuna/prob_model/posterior/run_preliminary_map.py:run_preliminary_map"]}
{"id": "C163", "title": "One-shot multicalibrators as objects", "statement": "calibrate of a one-shot multicalibrator rejects with ValueError, and without touching the object, targets, values, test values or minimum probabilities of the wrong form; otherwise what it leaves behind does not depend on what the object held before. The patch of a bucket and class is the mean score of the points sent to that bucket whose top label is the class, when their share exceeds the threshold, and the centre of the bucket otherwise. apply_patches replaces the value (for top labels: only the largest entry of each row) by the patch of the bucket of that value, leaves every other entry alone and keeps the shape; before any calibration it is the identity. Values stay in [0, 1]. On data whose values are centres of buckets, frequent groups become calibrated and the squared error does not increase. Refuted: rows of probabilities need not sum to one afterwards, the predicted label can change, away from the centres the squared error can grow, a calibrate that raises TypeError has already replaced the number of buckets and so changes later predictions, and labels beyond the number of classes are accepted.", "quantifier": "for all kinds (plain, binary, top label with any number of classes), calibrator states, targets, values, test values, numbers of buckets and minimum probabilities", "why_tests_cant": "tests call calibrate on one random data set per class and look at shapes; the meaning of every patch, independence from the earlier state, and the behaviour after a failed call concern all data and all histories", "anchors": ["fortuna/conformal/multivalid/one_shot/base.py:OneShotMultivalidMethod.calibrate", "fortuna/conformal/multivalid/one_shot/base.py:OneShotMultivalidMethod.apply_patches", "fortuna/conformal/multivalid/one_shot/multicalibrator.py:OneShotMulticalibrator._compute_expectation", "fortuna/conformal/multivalid/one_shot/classification/binary_multicalibrator.py:OneShotBinaryClassificationMulticalibrator", "fortuna/conformal/multivalid/one_shot/classification/top_label_multicalibrator.py:OneShotTopLabelMulticalibrator"]}
{"id": "C164", "title": "Iterative multivalid methods as objects", "statement": "calibrate of Multicalibrator, BinaryClassificationMulticalibrator, TopLabelMulticalibrator and BatchMVPConformalMethod rejects scores, groups, values, test arrays, rounds, eta, split, minimum probability and patch types of the wrong form with ValueError, and the object then returns the same as before; a call that passes its checks leaves an object that does not depend on what it held before. With additive patches calibrate without test data always returns; test data change neither the object nor the status, and the value returned is apply_patches of them. Every recorded patch has a requested bucket type, a group that exists, a bucket centre and a dimension that exists, and there are as many as the status says and at most n_rounds. The patch recorded in a round is computed on the values reached by the earlier patches, at the points used for fitting: no sufficiently frequent set has a larger size-weighted squared bias, and the patch is the bias, the ratio of means, or the shift by a multiple of the distance of the centres that brings the coverage closest. On aligned data the calibrated values have a total loss (squared, or pinball for BatchMVP) at most that of the given ones. apply_patches without patches returns its argument; otherwise it checks groups and values, stretches groups of one row, and moves each value, patch after patch, to the clipped target when it is selected and leaves it alone otherwise (for top labels only the top entry); results stay in [0, 1], keep the shape, and each point depends on its own row and value only. Initial values are zeros, one half with noise, or rows of noise around 1/m folded at one that sum to one. calibration_error of a group is the size-weighted squared bias of its buckets, None for an empty group, and TypeError for BatchMVP without thresholds or before calibrate. Refuted: when all frequent sets are unbiased a set rarer than min_prob_b is patched; a call rejected for its bucket types changes predictions; BatchMVP with multiplicative patches loses the patches of an earlier call; groups and values of other lengths than the targets are accepted; test groups with fewer columns are patched by their last column; calibrate with test groups can return None for them; a rejected call of BatchMVP changes calibration_error; test thresholds of BatchMVP are rejected only after the fit.", "quantifier": "all permutations and normal numbers of ordinary size, all four methods, all histories of calls, all targets, groups, values, test arrays and arguments", "why_tests_cant": "The tests call calibrate once per method with random arrays of matching shapes and look at shapes of the results; they do not reuse an object after a rejected call, nor check the meaning of a replayed patch, of the initial values or of calibration_error for arbitrary data.", "anchors": ["fortuna/conformal/multivalid/iterative/base.py:IterativeMultivalidMethod.calibrate", "fortuna/conformal/multivalid/iterative/base.py:IterativeMultivalidMethod.apply_patches", "fortuna/conformal/multivalid/iterative/base.py:IterativeMultivalidMethod.calibration_error", "fortuna/conformal/multivalid/iterative/batch_mvp.py:BatchMVPConformalMethod.calibrate", "fortuna/conformal/multivalid/iterative/classification/binary_multicalibrator.py:BinaryClassificationMulticalibrator.calibrate", "fortuna/conformal/multivalid/iterative/classification/top_label_multicalibrator.py:TopLabelMulticalibrator.calibrate"]}
{"id": "C165", "title": "Conformal sets of BatchMVP cover groups as calibration_error says", "statement": "conformal_set of BatchMVPConformalClassifier rejects class scores without two axes, thresholds without one axis and different lengths with ValueError; otherwise the set of a point lists, in ascending order, exactly the classes whose score is at most the threshold, so is_in says whether the score of the label is at most the threshold. For every calibrator with one value per point, if each value of a group lies in some bucket, then the squared total bias of the group is at most the entry of calibration_error times the squared size of the group. After calibrating BatchMVP with eta one, thresholds that start on the grid of bucket centres stay on it, so the number of labels of any group that are in their conformal sets is within the square root of the entry times the group size of coverage times the size. With a smaller eta thresholds can leave every bucket: calibration_error is then zero though no label is in its set and the coverage asked for is one. The entry is never below the squared distance of coverage times group size to the nearest whole number, divided by the squared group size, whatever the number of buckets and rounds: with coverage one half a group of odd size n has an entry of at least 1/(4 n^2). So the documented guarantee that some number of buckets brings the calibration error below any tolerance is refuted.", "quantifier": "all scores, thresholds, labels, groups, histories of calibrate calls, calibration data and arguments accepted by calibrate", "why_tests_cant": "The bound relates an error reported per bucket to coverage over whole groups for all data; tests see the numbers of a few data sets, and the thresholds between buckets only appear for particular step sizes.", "anchors": ["fortuna/conformal/multivalid/iterative/regression/batch_mvp.py:BatchMVPConformalClassifier.conformal_set", "fortuna/conformal/classification/base.py:ConformalClassifier.is_in", "fortuna/conformal/multivalid/iterative/base.py:IterativeMultivalidMethod.calibration_error", "fortuna/conformal/multivalid/iterative/base.py:IterativeMultivalidMethod.calibrate", "fortuna/conformal/multivalid/iterative/base.py:IterativeMultivalidMethod.apply_patches"]}
{"id": "C166", "title": "Temperature scaling calibrators as objects", "statement": "Fitting a binary temperature scaling calibrator with probabilities or targets that are not one-dimensional, or targets that are not of the default integer type, raises ValueError and changes nothing. Otherwise the outcome of each of the four methods is a stated function of the lengths and the threshold: Bias always succeeds, Brier succeeds when the lengths are equal or one of them is one, CrossEntropy and F1 need non-empty arrays of equal length and F1 a non-zero threshold. Bias stores the mean probability over the mean target, Brier the sum of squared probabilities over the sum of probabilities times targets, with the conventions of float division. A successful fit does not depend on earlier fits, a failed one keeps the temperature and the probabilities. predict_proba divides by the temperature and clips to [0,1]; predict compares with the given threshold (0.5 by default, the threshold of fit for F1). With no positive target Bias and Brier answer zero for every input. A Brier fit never increases the squared error on the fitted data, an F1 fit classifies at least as well as each temperature of the grid. The multi-class calibrator checks shapes and types first, raises IndexError for targets outside the classes, and otherwise stores a temperature whose negative log-likelihood is at most that of each grid temperature; its predictions are the most likely classes of its probabilities.", "quantifier": "all calibrators, histories, probabilities, targets, thresholds and results of the line searches", "why_tests_cant": "Outcomes depend on the state left by earlier calls, on lengths, types and degenerate divisions; optimality is over all data and a grid of temperatures.", "anchors": ["fortuna/calibration/binary_classification/temp_scaling/base.py:BaseBinaryClassificationTemperatureScaling.predict_proba", "fortuna/calibration/binary_classification/temp_scaling/base.py:BaseBinaryClassificationTemperatureScaling.predict", "fortuna/calibration/binary_classification/temp_scaling/bias_binary_temp_scaling.py:BiasBinaryClassificationTemperatureScaling.fit", "fortuna/calibration/binary_classification/temp_scaling/brier_binary_temp_scaling.py:BrierBinaryClassificationTemperatureScaling.fit", "fortuna/calibration/binary_classification/temp_scaling/crossentropy_binary_temp_scaling.py:CrossEntropyBinaryClassificationTemperatureScaling.fit", "fortuna/calibration/binary_classification/temp_scaling/f1_temp_scaling.py:F1BinaryClassificationTemperatureScaling.fit", "fortuna/calibration/binary_classification/temp_scaling/f1_temp_scaling.py:F1BinaryClassificationTemperatureScaling.predict", "fortuna/calibration/classification/temp_scaling/base.py:ClassificationTemperatureScaling.fit", "fortuna/calibration/classification/temp_scaling/base.py:ClassificationTemperatureScaling.predict_proba", "fortuna/calibration/classification/temp_scaling/base.py:ClassificationTemperatureScaling.predict"]}
{"id": "C167", "title": "Which optimizer trains ensembles and samplers with frozen parameters", "statement": "A deep ensemble fitted with a freeze function after a preliminary MAP run has as many members as its size. Each member starts from the frozen parameters of the MAP and newly initialised trainable ones, keeps the frozen ones unchanged, and gets one update per batch of the trainable ones. These updates are made by the optimizer of the configuration of the preliminary run, on an initial state of the optimizer of the configuration of the ensemble, with the step counter and mutable variables of the MAP; two configurations of the ensemble whose optimizers have the same initial states give the same ensemble. So the claim that an ensemble is trained with the optimizer of its configuration is refuted. When the preliminary run dumps its state, training raises AttributeError; when both runs accumulate gradients and some parameter is frozen, it raises ValueError. Without a preliminary run members are trained by their own optimizer from step 0, and without a freeze function the configuration of the preliminary run is ignored. SGHMC and cyclical SGLD start with their own integrator in every case. A smaller ensemble is the beginning of a larger one with the same initialisations and batches.", "quantifier": "all networks, objectives, optimizers, freeze functions of paths, configurations of both runs, batches, initialisations and ensemble sizes", "why_tests_cant": "The tests use the default optimizer in every configuration and check that fitting runs; which optimizer made an update shows only in the values.", "anchors": ["fortuna/prob_model/posterior/deep_ensemble/deep_ensemble_posterior.py:DeepEnsemblePosterior.fit", "fortuna/prob_model/posterior/deep_ensemble/deep_ensemble_posterior.py:DeepEnsemblePosterior._init_map_state", "fortuna/prob_model/posterior/base.py:Posterior._freeze_optimizer_in_state", "fortuna/prob_model/posterior/run_preliminary_map.py:run_preliminary_map", "fortuna/prob_model/posterior/map/map_posterior.py:MAPPosterior.fit", "fortuna/training/trainer.py:TrainerABC.training_step", "fortuna/training/trainer.py:TrainerABC.on_train_start", "fortuna/training/trainer.py:TrainerABC.on_train_end", "fortuna/prob_model/posterior/sgmcmc/sghmc/sghmc_posterior.py:SGHMCPosterior._init_map_state", "fortuna/prob_model/posterior/sgmcmc/cyclical_sgld/cyclical_sgld_posterior.py:CyclicalSGLDPosterior._init_map_state"]}
{"id": "C168", "title": "Continuing fits of ADVI", "statement": "A fit of ADVI that starts from a MAP or initial state trains from its parameters and from random logarithms of standard deviations of the same number. A fit that starts from a state of ADVI trains from exactly the means and logarithms of standard deviations that the state stores, in the same vectors; with a freeze function whose trainable paths are in sorted order too, and arrays that are not trainable are stored unchanged. So two fits one after the other equal one fit that trains by the first and then by the second. When a freeze function is given after a fit without one, training starts from the stored means and logarithms at the trainable paths. The following claims are refuted: a state stored with a freeze function can be continued without one (it raises for every training that keeps the lengths of vectors, when some array that was not trainable is not empty), or with one that makes a frozen array trainable (KeyError); and a fit without a single step keeps the means (when the trainable paths are not in sorted order, each fit permutes entries between arrays).", "quantifier": "all trees of parameters with unique keys, freeze functions of paths, stored states, random draws and training procedures that keep the lengths of vectors", "why_tests_cant": "The tests fit ADVI once per state and check that it runs; which vectors a second fit starts from, and in which order, shows only in the values, and depends on the order of keys.", "anchors": ["fortuna/prob_model/posterior/normalizing_flow/advi/advi_posterior.py:ADVIPosterior.fit", "fortuna/prob_model/posterior/normalizing_flow/advi/advi_posterior.py:ADVIPosterior._init_map_state", "fortuna/prob_model/posterior/normalizing_flow/advi/advi_posterior.py:ADVIPosterior._init_advi_from_map_state", "fortuna/prob_model/posterior/normalizing_flow/advi/advi_posterior.py:ADVIPosterior._get_unravel", "fortuna/prob_model/posterior/normalizing_flow/advi/advi_trainer.py:ADVITrainer.on_train_start", "fortuna/prob_model/posterior/normalizing_flow/advi/advi_trainer.py:ADVITrainer.on_train_end", "fortuna/prob_model/posterior/normalizing_flow/advi/advi_trainer.py:ADVITrainer._unravel_params", "fortuna/prob_model/posterior/normalizing_flow/advi/advi_architecture.py:ADVIArchitecture.init_params"]}
{"id": "C169", "title": "Continuing fits of MAP", "statement": "A fit of MAP that continues an earlier one makes one update for each batch, from the parameters, mutable variables and step counter of the earlier fit, by the optimizer of its own configuration from a new state of that optimizer; with a freeze function this holds for the trainable parameters and the others are kept. After any number of fits with different configurations the step counter has counted all batches, the parameters have the same paths, and an array that was frozen in all fits is unchanged. Without gradient accumulation it makes no difference whether states are kept in memory or read from checkpoints. With an optimizer without state and an objective without random numbers, two fits are one fit on the batches of both, also in the middle of accumulating gradients. The following claims are refuted: two fits are one fit for every optimizer (the optimizer starts anew, while the step counter does not); gradients accumulated at the end of a fit are kept in its checkpoint; and fits that accumulate gradients can be continued from memory with other trainable parameters (ValueError).", "quantifier": "all sequences of fits, optimizers, objectives, batches, freeze functions of paths, numbers of accumulation steps and stored states", "why_tests_cant": "The tests continue a fit once, with one optimizer and one batch size, and check that it runs; which part of the state is carried over shows only in the values, for optimizers with a state or accumulated gradients.", "anchors": ["fortuna/prob_model/posterior/map/map_posterior.py:MAPPosterior.fit", "fortuna/prob_model/posterior/base.py:Posterior._restore_state_from_somewhere", "fortuna/prob_model/posterior/base.py:Posterior._freeze_optimizer_in_state", "fortuna/training/train_state_repository.py:TrainStateRepository.get", "fortuna/training/mixin.py:WithCheckpointingMixin.save_checkpoint", "fortuna/prob_model/posterior/state.py:PosteriorState.init_from_dict"]}
{"id": "C170", "title": "Continuing fits of SWAG", "statement": "After any number of fits of SWAG, each starting from the state of the one before, the state is that of the last fit alone: its parameters are those of gradient descent from the parameters and mutable variables of the fit before it, with a new state of the optimizer and the step counter at zero, and its mean, standard deviation and deviations are the weighted averages of the iterates of this fit only. Of the state it starts from a fit uses only parameters and mutable variables. With an optimizer without state and an objective without random numbers, the parameters after two fits are those after one fit with the epochs of both; that the statistics are those of one fit too is refuted.", "quantifier": "all sequences of fits, ranks, optimizers, objectives, batches, numbers of epochs and stored states", "why_tests_cant": "The tests fit SWAG once after MAP and check that samples have the right shapes; that statistics of an earlier fit are dropped while its last iterate is kept shows only in their values.", "anchors": ["fortuna/prob_model/posterior/swag/swag_posterior.py:SWAGPosterior.fit", "fortuna/prob_model/posterior/swag/swag_state.py:SWAGState.convert_from_map_state", "fortuna/prob_model/posterior/swag/swag_trainer.py:SWAGTrainer._update_state_with_stats", "fortuna/prob_model/posterior/swag/swag_trainer.py:SWAGTrainer.training_step_end"]}
{"id": "C171", "title": "Continuing fits of stochastic gradient samplers", "statement": "After any number of fits of SGHMC or cyclical SGLD, each starting from what the one before has stored, the samples and the end of the chain are those of the last fit alone. It starts from the parameters and mutable variables of the end of the chain when a checkpoint is given, and of the last sample when the current state is used; momenta are new, steps are counted from zero, and the burn-in or the cycles are run again. A fit sees nothing else of what is stored. From the checkpoint and from the current state SGHMC continues in the same way when burn-in and samples use up all updates of the fit before; that it always does is refuted, since the updates after the last sample are lost. After a fit of SGHMC stopped before all samples were kept, fitting from the current state raises ValueError.", "quantifier": "all sequences of fits, numbers of samples, thinnings, burn-ins, cycles, integrators, objectives, batches, numbers of epochs and stored chains", "why_tests_cant": "The tests fit again from a checkpoint or from the current state and check that nothing is raised; where the chain goes on and which samples survive shows only in their values.", "anchors": ["fortuna/prob_model/posterior/sgmcmc/sgmcmc_posterior.py:SGMCMCPosterior._restore_state_from_somewhere", "fortuna/prob_model/posterior/sgmcmc/sghmc/sghmc_posterior.py:SGHMCPosterior.fit", "fortuna/prob_model/posterior/sgmcmc/cyclical_sgld/cyclical_sgld_posterior.py:CyclicalSGLDPosterior.fit", "fortuna/prob_model/posterior/sgmcmc/sghmc/sghmc_state.py:SGHMCState.convert_from_map_state", "fortuna/prob_model/posterior/sgmcmc/cyclical_sgld/cyclical_sgld_state.py:CyclicalSGLDState.convert_from_map_state"]}
{"id": "C172", "title": "Features of the transformers of SNGP", "statement": "The transformers of SNGP return one vector of features per text: the positive part (BERT, DistilBERT) or hyperbolic tangent (RoBERTa) of an affine function of the pooled vector of the text, for DistilBERT of the vector of its first token; in training some features are set to zero and the others divided by the probability to be kept. Features of BERT and DistilBERT are never negative, those of RoBERTa are between -1 and 1 (scaled by dropout in training). In predictions, distances between features are at most those between the vectors of the texts times the largest gain of the kernel, which spectral normalisation never increases. Masks, token types, positions and head masks left out are ones, zeros, the numbers from zero (RoBERTa: the positions of the library) and ones; DistilBERT rejects token types and positions and ignores head masks. In predictions the model manager returns the features alone; that it does in training too is refuted for configurations without return_dict.", "quantifier": "all architectures, transformers, kernels, biases, dropout rates and masks, texts and configurations", "why_tests_cant": "The tests run tiny random transformers and check shapes; signs, bounds and distances of features hold for all weights and texts.", "anchors": ["fortuna/prob_model/posterior/sngp/transformers/models/modeling_flax_bert.py:FlaxSNGPBertExtractorForSequenceClassificationModule.__call__", "fortuna/prob_model/posterior/sngp/transformers/models/modeling_flax_distilbert.py:FlaxSNGPDistilBertExtractorForSequenceClassificationModule.__call__", "fortuna/prob_model/posterior/sngp/transformers/models/modeling_flax_roberta.py:FlaxSNGPRobertaExtractorForSequenceClassificationModule.__call__", "fortuna/prob_model/posterior/sngp/transformers/models/modeling_flax_bert.py:FlaxSNGPBertExtractorForSequenceClassification.__call__", "fortuna/prob_model/posterior/sngp/transformers/models/modeling_flax_distilbert.py:FlaxSNGPDistilBertExtractorForSequenceClassification.__call__", "fortuna/prob_model/posterior/sngp/transformers/models/modeling_flax_roberta.py:FlaxSNGPRobertaExtractorForSequenceClassification.__call__", "fortuna/model/model_manager/transformers/classification.py:HuggingFaceClassificationModelManager.apply"]}
{"id": "C173", "title": "Callbacks in training", "statement": "Callbacks that return the state they are given change nothing: training ends with the state, the histories, the checkpoints or the exception of training without callbacks, whatever they keep in their attributes. In every epoch the callbacks are called in the order of the list, first their epoch starts, then after every step (with gradient accumulation: every full group of micro-batches of the epoch) their step ends, then their epoch ends, at the expected step numbers. Checkpoints written after a step have the state that the step returned, before callbacks. Refuted: that such a checkpoint has the state training goes on with; that with gradient accumulation callbacks are called after every update; that a callback that sets the step sets the key of the next batch.", "quantifier": "all lists of callbacks with any attributes, training and validation steps, loaders, configurations and starting states", "why_tests_cant": "The tests train one model with one callback; order and absence of effects are claims about all callbacks, loaders and configurations.", "anchors": ["fortuna/training/callback.py:Callback", "fortuna/training/trainer.py:TrainerABC._callback_loop", "fortuna/training/trainer.py:TrainerABC.training_epoch_start", "fortuna/training/trainer.py:TrainerABC.training_step_end", "fortuna/training/trainer.py:TrainerABC.training_epoch_end", "fortuna/training/trainer.py:TrainerABC._training_loop"]}
{"id": "C174", "title": "Continuing fits of deep ensembles", "statement": "A fit of a deep ensemble that continues an earlier one succeeds if and only if every member can be continued, and then each member is what its own sequence of fits makes of it, as fits of MAP on its own batches with its own keys, independently of the other members. After a fit with a preliminary run of MAP and any number of continued fits, all members still have the values of the MAP at parameters frozen by every fit, and their step counters are that of the MAP plus the batches seen. Refuted: that after a preliminary run a fit and its continuation with the same configuration make one longer fit, for optimizers without state.", "quantifier": "all losses, optimizers, freeze functions of paths, batches, numbers of members and of fits, stored in memory or in checkpoints", "why_tests_cant": "The tests continue one ensemble once and check that nothing raises; values of frozen parameters over any number of fits and independence of members are not looked at.", "anchors": ["fortuna/prob_model/posterior/deep_ensemble/deep_ensemble_posterior.py:DeepEnsemblePosterior.fit", "fortuna/prob_model/posterior/deep_ensemble/deep_ensemble_posterior.py:DeepEnsemblePosterior._restore_state_from_somewhere", "fortuna/prob_model/posterior/deep_ensemble/deep_ensemble_posterior.py:DeepEnsemblePosterior._init_map_state", "fortuna/prob_model/posterior/base.py:Posterior._freeze_optimizer_in_state"]}
{"id": "C175", "title": "Callbacks of deep ensembles", "statement": "The members of a deep ensemble are trained one after the other with the same callback objects. If the callbacks return the states they are given, every member is that of training without callbacks, with its histories, checkpoints or exception, independently of the other members and of what the callbacks keep. Callbacks are called for one member after the other, for each in the order of training with callbacks. Refuted: that members which start from equal states and are trained in the same way end in equal states: attributes of callbacks last from member to member.", "quantifier": "all lists of callbacks with any attributes, training and validation steps, loaders, configurations, numbers of members and starting states", "why_tests_cant": "No test passes callbacks to an ensemble; order of calls and independence of members are claims about all callbacks, loaders and configurations.", "anchors": ["fortuna/prob_model/posterior/deep_ensemble/deep_ensemble_posterior.py:DeepEnsemblePosterior.fit", "fortuna/training/callback.py:Callback", "fortuna/training/trainer.py:TrainerABC._callback_loop", "fortuna/training/trainer.py:TrainerABC.train"]}
{"id": "C176", "title": "Several calibrations after each other", "statement": "Calibrating a posterior again goes on from its calibration parameters: after any number of calibrations with their own optimizers, configurations, data and draws, the parameters are those of one gradient descent after the other, each from the parameters of the one before and from a new state of its optimizer, for its configured number of epochs unless early stopping is active. With an optimizer without state, no early stopping and the same data and outputs, calibrations of n1, n2, ... epochs all succeed and give the parameters of one calibration of n1 + n2 + ... epochs. A calibration of given outputs starts from its checkpoint (parameters and step number, new optimizer state) or else from new parameters, whatever calibrations came before. Refuted: that calibrations of a posterior are one longer calibration for optimizers with state; that calibrating given outputs again goes on from the calibrated parameters.", "quantifier": "all calibrators without mutable variables, likelihoods, losses, optimizers, metrics, numbers of calibrations and of epochs, data and ensembles of outputs", "why_tests_cant": "The tests calibrate once or twice and check that nothing raises; where a calibration starts and equality with a longer one are not looked at.", "anchors": ["fortuna/prob_model/base.py:ProbModel._calibrate", "fortuna/output_calib_model/base.py:OutputCalibModel._calibrate", "fortuna/output_calib_model/state.py:OutputCalibState.init", "fortuna/output_calib_model/state.py:OutputCalibState.init_from_dict", "fortuna/output_calib_model/output_calib_mixin.py:WithOutputCalibCheckpointingMixin.restore_checkpoint"]}
{"id": "C177", "title": "How many samples stochastic gradient samplers can keep", "statement": "A fit of cyclical SGLD with cycles of L updates, thinning t and exploration ratio r accepts n_samples exactly when it is at most (steps / L) times the number of multiples of t in [ceil(r L), L), plus the number of multiples of t in [max(1, ceil(r L)), steps mod L]; otherwise it raises ValueError before training. For whole cycles this is the documented number of sampling steps divided by t when t divides L and the length of the exploration part, and otherwise differs from it by at most one sample per cycle, since thinning starts again in every cycle. Refuted: the documented number itself (requests below it are rejected and requests above it are accepted); in particular with t >= L and r > 0 no number of epochs gives a single sample. The documented formulas as written, with remainders instead of quotients, give 0 for every whole number of cycles, and for SGHMC numbers below those that are accepted.", "quantifier": "all numbers of samples, thinnings, cycle lengths, exploration ratios, epochs and steps", "why_tests_cant": "The tests only use thinning 1 and one cycle length; the count depends on divisibility of four numbers.", "anchors": ["fortuna/prob_model/posterior/sgmcmc/cyclical_sgld/cyclical_sgld_callback.py:CyclicalSGLDSamplingCallback.__init__", "fortuna/prob_model/posterior/sgmcmc/cyclical_sgld/cyclical_sgld_approximator.py:CyclicalSGLDPosteriorApproximator.__init__", "fortuna/prob_model/posterior/sgmcmc/sghmc/sghmc_callback.py:SGHMCSamplingCallback.__init__", "fortuna/prob_model/posterior/sgmcmc/sghmc/sghmc_approximator.py:SGHMCPosteriorApproximator.__init__"]}
{"id": "C178", "title": "Several calibrations of a calibration model", "statement": "A successful calibration of a calibration model makes one update for each batch by the gradient of its loss, without clipping or accumulation, starting from the step counter and parameters of its checkpoint if one is given, else from the current ones if start_from_current_state is set, else from step 0 and new parameters, and with a new state of its own optimizer; with mutable variables it succeeds only if there is no batch. When the optimizer does not raise, it succeeds exactly when there is a state to start from, there are no mutable variables or no batches, a directory is given if the state is to be dumped, and the labels of the freeze function, if there is one, are all allowed. With a freeze function this holds for the trainable parameters and the others are kept. After any number of calibrations that continue a first one the step counter has counted all batches, the parameters have the same paths, and arrays frozen in all calibrations are unchanged. A calibration that does not continue gives the same whatever came before. Dumping states makes no difference to them. With an optimizer without state and a model without random numbers, a calibration and those that continue it are one calibration on all their batches. Refuted: this also holds without start_from_current_state (the second calibration starts from new parameters), and for optimizers with a state (it is lost while the step counter is kept).", "quantifier": "all models, losses, optimizers, freeze functions, batches, checkpoints, and lists of calls with different configurations", "why_tests_cant": "The tests only check that calls run; the relation between calls quantifies over histories and configurations.", "anchors": ["fortuna/calib_model/base.py:CalibModel._calibrate", "fortuna/calib_model/base.py:CalibModel._init_state", "fortuna/calib_model/base.py:CalibModel._init", "fortuna/calib_model/calib_mixin.py:WithCalibCheckpointingMixin.restore_checkpoint", "fortuna/calib_model/calib_model_calibrator.py:CalibModelCalibrator.training_loss_step", "fortuna/calib_model/state.py:CalibState.init_from_dict", "fortuna/training/train_state_repository.py:TrainStateRepository.get", "fortuna/training/train_state_repository.py:TrainStateRepository.put"]}
