(** Properties C01-C08 and C55: data loaders.  Statements only; proofs are in
    LoaderProofs*.v. *)
From Coq Require Import List Arith ZArith Lia Permutation Bool.
From Verif Require Import Lib LoaderModel LoaderSpec LoaderProofs LoaderProofs2 LoaderProofs3.
Import ListNotations.

(** C01 *)
Theorem C01_batching_pairs : forall X Y (xs : list X) (ys : list Y) b prefetch perm,
  1 <= b -> length xs = length ys ->
  exists bs, from_batch_array_data xs ys (Some b) false prefetch perm = Ok bs /\
    well_batched b xs (map fst bs) /\ well_batched b ys (map snd bs) /\ aligned bs /\
    rows bs = combine xs ys.
Proof. intros X Y. exact (@from_batch_array_data_spec X Y). Qed.
Print Assumptions C01_batching_pairs.

Theorem C01_batching_single : forall A (data : list A) b prefetch perm,
  1 <= b ->
  exists bs, from_array_data data (Some b) false prefetch perm = Ok bs /\ well_batched b data bs.
Proof. intros A. exact (@from_array_data_spec A). Qed.
Print Assumptions C01_batching_single.

Example C01_case : from_batch_array_data [10;20;30;40;50] [1;2;3;4;5] (Some 2) false true []
  = Ok [([10;20],[1;2]); ([30;40],[3;4]); ([50],[5])].
Proof. reflexivity. Qed.
Example C01_case_empty : from_array_data (@nil nat) (Some 3) false false [] = Ok [[]].
Proof. reflexivity. Qed.

(** C02 *)
Theorem C02_shuffle : forall X Y (xs : list X) (ys : list Y) b prefetch perm,
  1 <= b -> length xs = length ys -> is_perm_of (length xs) perm ->
  exists bs, from_batch_array_data xs ys (Some b) true prefetch perm = Ok bs /\
    aligned bs /\
    map Some (rows bs) = map (nth_error (combine xs ys)) perm /\
    Permutation (rows bs) (combine xs ys) /\
    well_batched b (concat (map fst bs)) (map fst bs).
Proof. intros X Y. exact (@shuffle_spec X Y). Qed.
Print Assumptions C02_shuffle.

(** without a batch size the data come out in order even if shuffle=True *)
Theorem C02_shuffle_ignored_without_batch_size : forall X Y (xs : list X) (ys : list Y) prefetch perm,
  from_batch_array_data xs ys None true prefetch perm = Ok [(xs, ys)].
Proof. intros. exact eq_refl. Qed.
Print Assumptions C02_shuffle_ignored_without_batch_size.

Example C02_case : is_perm_of 3 [2;0;1] /\
  from_batch_array_data [10;20;30] [1;2;3] (Some 2) true false [2;0;1]
  = Ok [([30;10],[3;1]); ([20],[2])].
Proof.
  split; [|reflexivity]. unfold is_perm_of. simpl.
  apply (perm_trans (l' := [0;2;1])); [apply perm_swap|apply perm_skip, perm_swap].
Qed.

(** C03 *)
Theorem C03_array_round_trip : forall X Y (xs : list X) (ys : list Y) b prefetch perm,
  1 <= b -> length xs = length ys ->
  exists bs, from_batch_array_data xs ys (Some b) false prefetch perm = Ok bs /\
    to_array_data bs = Ok (xs, ys) /\ to_array_inputs bs = Ok xs /\ to_array_targets bs = Ok ys /\
    size bs = length xs.
Proof. intros X Y. exact (@to_array_roundtrip X Y). Qed.
Print Assumptions C03_array_round_trip.

Theorem C03_views_rezip : forall X Y (bs : list (batch X Y)),
  combine (to_inputs_loader bs) (to_targets_loader bs) = bs.
Proof. intros X Y. exact (@views_rezip X Y). Qed.
Print Assumptions C03_views_rezip.

Example C03_case : to_array_data [([10;20],[1;2]); ([30],[3])] = Ok ([10;20;30],[1;2;3]).
Proof. reflexivity. Qed.

(** C04 *)
Theorem C04_split : forall X Y n (l l1 l2 : list (batch X Y)), aligned l -> split n l = (l1, l2) ->
  rows l1 ++ rows l2 = rows l /\ size l1 = Nat.min n (size l) /\ aligned l1 /\ aligned l2 /\
  (nonempty_batches l -> nonempty_batches l1 /\ nonempty_batches l2).
Proof. intros X Y. exact (@split_spec X Y). Qed.
Print Assumptions C04_split.

Theorem C04_split_single : forall A n (l l1 l2 : list (list A)), split1 n l = (l1, l2) ->
  concat l1 ++ concat l2 = concat l /\ length (concat l1) = Nat.min n (size1 l).
Proof. intros A. exact (@split1_spec A). Qed.
Print Assumptions C04_split_single.

Example C04_case : split 3 [([10;20],[1;2]); ([30;40],[3;4]); ([50],[5])]
  = ([([10;20],[1;2]); ([30],[3])], [([40],[4]); ([50],[5])]) /\
  aligned [([10;20],[1;2]); ([30;40],[3;4]); ([50],[5])].
Proof. split; [reflexivity|]. repeat constructor. Qed.

(** C05 *)
Theorem C05_chop : forall X Y d (l : list (batch X Y)), 1 <= d -> aligned l ->
  exists out, chop d l = Ok out /\ chopped d l out /\
    aligned out /\ Forall (fun p => exists k, length (snd p) = k * d) out.
Proof. intros X Y. exact (@chop_spec X Y). Qed.
Print Assumptions C05_chop.
Example C05_case_aligned : aligned [([10;20;30],[1;2;3]); ([40],[4]); ([50;60],[5;6])] /\ longest_divisible_prefix 2 [10;20;30] [10;20].
Proof. split; [repeat constructor|]. exists [30]. split; [reflexivity|]. split; [now exists 1|]. cbn. lia. Qed.

Theorem C05_chop_idempotent : forall X Y d (l : list (batch X Y)), 1 <= d ->
  Forall (fun p => exists k, length (snd p) = k * d) l -> chop d l = Ok l.
Proof. intros X Y. exact (@chop_idempotent X Y). Qed.
Print Assumptions C05_chop_idempotent.

Theorem C05_prefix_unique : forall A d (l p q : list A),
  longest_divisible_prefix d l p -> longest_divisible_prefix d l q -> p = q.
Proof. intros A. exact (@longest_divisible_prefix_unique A). Qed.
Print Assumptions C05_prefix_unique.

(** inputs and targets loaders chop as the corresponding data loader does *)
Theorem C05_chop_single : forall A d (l : list (list A)),
  chop d (map (fun b => (b, b)) l) = rmap (map (fun b => (b, b))) (chop1 d l).
Proof. intros A. exact (@chop1_pair A). Qed.
Print Assumptions C05_chop_single.

Example C05_case : chop 2 [([10;20;30],[1;2;3]); ([40],[4]); ([50;60],[5;6])]
  = Ok [([10;20],[1;2]); ([50;60],[5;6])].
Proof. reflexivity. Qed.

(** C06 *)
Theorem C06_interpose : forall X T (ls : list (list (list X))) (targets : list T),
  length ls = length targets ->
  exists out, inputs_loaders_to_batches ls targets Interpose = Ok out /\ aligned out /\
    num_batches out = max_nat (map (@length _) ls) /\
    rows out = flat_map (fun r => flat_map (fun p => labelled (snd p) (lookup (fst p) r)) (combine ls targets))
                        (seq 0 (max_nat (map (@length _) ls))) /\
    Permutation (rows out) (flat_map (fun p => labelled (snd p) (concat (fst p))) (combine ls targets)).
Proof. intros X T. exact (@interpose_spec X T). Qed.
Print Assumptions C06_interpose.

Theorem C06_concatenate : forall X T (ls : list (list (list X))) (targets : list T),
  exists out, inputs_loaders_to_batches ls targets Concatenate = Ok out /\ aligned out /\
    rows out = flat_map (fun p => labelled (snd p) (concat (fst p))) (combine ls targets) /\
    to_inputs_loader out = flat_map fst (combine ls targets).
Proof. intros X T. exact (@concatenate_spec X T). Qed.
Print Assumptions C06_concatenate.

Theorem C06_unknown_how : forall X T (ls : list (list (list X))) (targets : list T),
  inputs_loaders_to_batches ls targets OtherHow = Err ValueError.
Proof. intros. exact eq_refl. Qed.
Print Assumptions C06_unknown_how.

Example C06_case :
  inputs_loaders_to_batches [[[1;2];[3]]; [[4]]] [7;8] Interpose = Ok [([1;2;4],[7;7;8]); ([3],[7])] /\
  inputs_loaders_to_batches [[[1;2];[3]]; [[4]]] [7;8] Concatenate
    = Ok [([1;2],[7;7]); ([3],[7]); ([4],[8])].
Proof. split; reflexivity. Qed.

(** with fewer targets than loaders, "interpose" yields batches with more inputs than targets *)
Theorem C06_missing_targets_refuted :
  exists (ls : list (list (list nat))) (targets : list nat) out,
    inputs_loaders_to_batches ls targets Interpose = Ok out /\ ~ aligned out.
Proof.
  exists [[[1]]; [[2]]], [7], [([1;2],[7])]. split; [exact eq_refl|].
  intros A. inversion A as [|? ? H]. discriminate H.
Qed.
Print Assumptions C06_missing_targets_refuted.

(** C07 *)
Theorem C07_passes_restart : forall X Y X' Y' S
  (f : list X -> list Y -> S -> transform_result (option (list X') * option (list Y')) S) l stored k,
  transform_passes f k stored l = repeat (fst (transform_pass f stored l)) k.
Proof. intros X Y X' Y' S. exact (@transform_passes_same X Y X' Y' S). Qed.
Print Assumptions C07_passes_restart.

Theorem C07_well_formed_batches : forall X Y X' Y' S
  (f : list X -> list Y -> S -> transform_result (option (list X') * option (list Y')) S) l stored,
  Forall (fun p => length (fst p) = length (snd p) /\ 1 <= length (fst p))
     (fst (fst (transform_pass f stored l))).
Proof. intros X Y X' Y' S f l stored. exact (transform_loop_wf f l stored (Own stored)). Qed.
Print Assumptions C07_well_formed_batches.

Theorem C07_passes_restart_single : forall A B S
  (f : list A -> S -> transform_result (option (list B)) S) l stored k,
  transform1_passes f k stored l = repeat (fst (transform1_pass f stored l)) k.
Proof. intros A B S. exact (@transform1_passes_same A B S). Qed.
Print Assumptions C07_passes_restart_single.

Theorem C07_prefetch_transparent : forall A (gen : list A) s fuel,
  pf_init gen = Ok s -> length gen < fuel -> pf_drain fuel s = Some gen.
Proof. intros A. exact (@pf_drain_all A). Qed.
Print Assumptions C07_prefetch_transparent.

(** a transformation that mutates the status and numbers the batches: the second
    pass starts again from the initial status *)
Example C07_case :
  let f (xs ys : list nat) (s : nat) := mk_tr (Some (map (Nat.add s) xs), Some ys) (s + 1) None in
  transform_passes f 2 0 [([10],[1]); ([20],[2])]
  = [([([10],[1]); ([21],[2])], None); ([([10],[1]); ([21],[2])], None)].
Proof. reflexivity. Qed.

(** C08 *)
Theorem C08_batching_independent : forall A B (g : A -> B) distribute d loader,
  1 <= d -> loader <> [] -> (distribute = true -> Forall (fun b => length b mod d = 0) loader) ->
  loop_fun distribute d (map g) loader = Ok (map g (concat loader)).
Proof. intros A B. exact (@loop_fun_rowwise A B). Qed.
Print Assumptions C08_batching_independent.

Theorem C08_indivisible_rejected : forall A B (f : list A -> list B) d loader,
  1 <= d -> Exists (fun b => length b mod d <> 0) loader -> loop_fun true d f loader = Err ValueError.
Proof. intros A B. exact (@loop_fun_indivisible A B). Qed.
Print Assumptions C08_indivisible_rejected.

Theorem C08_shard_unshard : forall A d (rows : list A), 1 <= d -> length rows mod d = 0 ->
  exists sh, reshape_devices d rows = Ok sh /\ concat sh = rows /\ length sh = d /\
    Forall (fun s => length s = length rows / d) sh.
Proof. intros A. exact (@reshape_devices_ok A). Qed.
Print Assumptions C08_shard_unshard.

Theorem C08_ensemble_batching_independent : forall A B (gs : list (A -> B)) distribute d loader,
  1 <= d -> loader <> [] -> (distribute = true -> Forall (fun b => length b mod d = 0) loader) ->
  loop_ensemble distribute d (length gs) (fun b => map (fun g => map g b) gs) loader
  = Ok (map (fun g => map g (concat loader)) gs).
Proof. intros A B. exact (@loop_ensemble_rowwise A B). Qed.
Print Assumptions C08_ensemble_batching_independent.

Theorem C08_ensemble_empty_rejected : forall A B distribute d s (f : list A -> list (list B)),
  loop_ensemble distribute d s f [] = Err ValueError.
Proof. intros A B. exact (@loop_ensemble_empty A B). Qed.
Print Assumptions C08_ensemble_empty_rejected.

(** Predictive.sample over two devices does not return one row per requested
    sample: it stacks the devices along the sample axis. *)
Theorem C08_distributed_sample_refuted :
  exists (gs : list (nat -> nat)) d loader,
    1 <= d /\ Forall (fun b => length b mod d = 0) loader /\
    sample_distributed d (length gs) (fun b => map (fun g => map g b) gs) loader
    <> Ok (map (fun g => map g (concat loader)) gs).
Proof.
  exists [fun x => x], 2, [[1;2]]. split; [exact (le_S _ _ (le_n 1))|]. split; [exact (Forall_cons [1;2] eq_refl (Forall_nil _))|].
  vm_compute. intros H. discriminate H.
Qed.
Print Assumptions C08_distributed_sample_refuted.

(** C08: what that method does return over [d] devices: a block of rows for each device, with the values at the shards of that device *)
Theorem C08_distributed_sample : forall A B (gs : list (A -> B)) g0 d (loader : list (list A)), 1 <= d -> loader <> [] ->
  Forall (fun b => length b mod d = 0) loader ->
  exists rows, sample_distributed d (length gs) (fun b => map (fun g => map g b) gs) loader = Ok rows /\ length rows = d * length gs /\
  forall k i, k < d -> i < length gs ->
    nth_error rows (k * length gs + i) = Some (flat_map (fun b => let m := length b / d in map (nth i gs g0) (firstn m (skipn (k * m) b))) loader).
Proof. exact (@sample_distributed_rows). Qed.
Print Assumptions C08_distributed_sample.
Example C08_case_distributed_sample : sample_distributed 2 2 (fun b => map (fun g => map g b) [S; Nat.mul 2]) [[1;2;3;4];[5;6]] =
  Ok [[2;3;6]; [2;4;10]; [4;5;7]; [6;8;12]] /\ Forall (fun b => length b mod 2 = 0) [[1;2;3;4];[5;6]].
Proof. split; [reflexivity|repeat constructor]. Qed.

Example C08_case : loop_fun true 2 (map S) [[1;2;3;4];[5;6]] = Ok [2;3;4;5;6;7] /\
  loop_ensemble true 2 2 (fun b => map (fun g => map g b) [S; Nat.mul 2]) [[1;2;3;4];[5;6]]
  = Ok [[2;3;4;5;6;7];[2;4;6;8;10;12]].
Proof. split; reflexivity. Qed.

(** C55 *)
Theorem C55_sample : forall X Y draw n fuel (l : list (batch X Y)) out,
  aligned l -> sample fuel draw n l = Some out ->
  aligned out /\ incl (rows out) (rows l) /\ size out = n /\
  Forall (fun p => 1 <= length (fst p)) out.
Proof. intros X Y draw n fuel l out A. exact (@sample_loop_spec X Y draw n fuel l 0 0 out A (Nat.le_0_l n)). Qed.
Print Assumptions C55_sample.
Example C55_case_aligned : aligned [([10;20],[1;2]); ([30],[3])].
Proof. repeat constructor. Qed.

Theorem C55_sample_empty_diverges : forall X Y draw n fuel, 1 <= n ->
  sample fuel draw n (@nil (batch X Y)) = None.
Proof. intros X Y. exact (@sample_empty_diverges X Y). Qed.
Print Assumptions C55_sample_empty_diverges.

Example C55_case :
  sample 3 (fun i => if Nat.even i then [true;false] else [true;true]) 3 [([10;20],[1;2])]
  = Some [([10],[1]); ([10;20],[1;2])].
Proof. reflexivity. Qed.
