(** Continuing fits of ADVI (C168). *)
From Coq Require Import List Arith String Permutation Sorting.Sorted.
From Verif Require Import Lib NestedModel NestedSpec FreezeModel FreezeSpec LapModel LapSpec FlatModel FlatSpec EnsSpec ResumeModel ResumeSpec ResumeProofs2 ResumeProofs3 ResumeCases.
Import ListNotations.
Open Scope list_scope.
Local Notation length := List.length.
Local Open Scope string_scope.
Local Open Scope list_scope.

(** From a MAP or initial state, training starts from its parameters and random logarithms of
    standard deviations of the same number. *)
Theorem C168_start : forall V (init : list (string * tree (list V))) random train, fit None (FromMap (wrap init)) random train = bind (train (ravel (wrap init)) (random (length (ravel (wrap init))))) (fun w => rmap FromPlain (advi_state init (fst w) (snd w))).
Proof. exact (@plain_start). Qed.
Print Assumptions C168_start.
Example C168_case_start : fit None (FromMap (wrap rs_init)) rs_zeros rs_train
  = Ok (FromPlain [("lik_log_var", (Leaf [17], Leaf [1])); ("model", (Dict [("bias", Leaf [14]); ("kernel", Leaf [11; 12; 13])], Dict [("bias", Leaf [1]); ("kernel", Leaf [1; 1; 1])]))]).
Proof. vm_compute. reflexivity. Qed.

(** With a freeze function, from those at the trainable paths; the others are stored unchanged. *)
Theorem C168_start_frozen : forall V f (init : tree (list V)) paths sizes random train, by_path f -> unique_keys init -> get_trainable_paths init (Some f) = Ok paths -> arrays_at init paths sizes -> StronglySorted path_lt paths ->
  (forall n, length (random n) = n) ->
  exists flat, ravel_paths init paths = Ok flat /\ length flat = list_sum sizes /\
  fit (Some f) (FromMap init) random train = bind (train flat (random (length flat))) (fun w => rmap (FromPaths paths) (advi_state_paths init paths (fst w) (snd w))).
Proof. exact (@frozen_start). Qed.
Print Assumptions C168_start_frozen.
Example C168_case_start_frozen : exists st, fit (Some rs_head) (FromMap rs_net) rs_zeros rs_train = Ok (FromPaths [rs_p "bias"; rs_p "kernel"] st) /\
  leaf_at st (rs_p "scale") [5; 6] /\ leaf_at st (rs_p "kernel" ++ ["mean"]) [11; 12; 13] /\ leaf_at st (rs_p "kernel" ++ ["log_std"]) [1; 1; 1].
Proof. eexists. split; [vm_compute; reflexivity|]. repeat split. Qed.

(** A fit from a stored state trains from the vectors that it stores. *)
Theorem C168_continue : forall V (init : list (string * tree (list V))) mean log_std st random train, unique_keys (Dict init) ->
  length mean = length (ravel (wrap init)) -> length log_std = length (ravel (wrap init)) -> advi_state init mean log_std = Ok st ->
  fit None (FromPlain st) random train = bind (train mean log_std) (fun w => rmap FromPlain (advi_state init (fst w) (snd w))).
Proof. exact (@plain_continue). Qed.
Print Assumptions C168_continue.
Example C168_case_continue : bind (fit None (FromMap (wrap rs_init)) rs_zeros rs_train) (fun s => fit None s (fun n => repeat 9 n) rs_train)
  = Ok (FromPlain [("lik_log_var", (Leaf [27], Leaf [2])); ("model", (Dict [("bias", Leaf [24]); ("kernel", Leaf [21; 22; 23])], Dict [("bias", Leaf [2]); ("kernel", Leaf [2; 2; 2])]))]).
Proof. vm_compute. reflexivity. Qed.

(** With a freeze function too when the trainable paths are in sorted order, whatever the order in
    which the stored paths are decoded. *)
Theorem C168_continue_frozen : forall V f (init : tree (list V)) paths sizes decoded mean log_std st random train, by_path f -> unique_keys init -> get_trainable_paths init (Some f) = Ok paths -> arrays_at init paths sizes -> StronglySorted path_lt paths ->
  Permutation paths decoded -> length mean = list_sum sizes -> length log_std = list_sum sizes -> advi_state_paths init paths mean log_std = Ok st ->
  fit (Some f) (FromPaths decoded st) random train = bind (train mean log_std) (fun w => rmap (FromPaths paths) (advi_state_paths init paths (fst w) (snd w))).
Proof. exact (@frozen_continue). Qed.
Print Assumptions C168_continue_frozen.
Example C168_case_continue_frozen : exists st st', fit (Some rs_head) (FromMap rs_net) rs_zeros rs_train = Ok (FromPaths [rs_p "bias"; rs_p "kernel"] st) /\
  fit (Some rs_head) (FromPaths [rs_p "kernel"; rs_p "bias"] st) rs_zeros rs_train = Ok (FromPaths [rs_p "bias"; rs_p "kernel"] st') /\
  leaf_at st' (rs_p "scale") [5; 6] /\ leaf_at st' (rs_p "kernel" ++ ["mean"]) [21; 22; 23] /\ leaf_at st' (rs_p "bias" ++ ["log_std"]) [2].
Proof. do 2 eexists. split; [vm_compute; reflexivity|]. split; [vm_compute; reflexivity|]. repeat split. Qed.

(** Two fits one after the other are one fit that trains by the first and then by the second. *)
Theorem C168_two : forall V (init : list (string * tree (list V))) random random' (t u : list V -> list V -> result (list V * list V)), unique_keys (Dict init) -> (forall n, length (random n) = n) -> keeps_lengths t ->
  bind (fit None (FromMap (wrap init)) random t) (fun s => fit None s random' u) = fit None (FromMap (wrap init)) random (followed_by t u).
Proof. exact (@plain_two). Qed.
Print Assumptions C168_two.

Theorem C168_two_frozen : forall V f (init : tree (list V)) paths sizes random random' (t u : list V -> list V -> result (list V * list V)), by_path f -> unique_keys init -> get_trainable_paths init (Some f) = Ok paths -> arrays_at init paths sizes -> StronglySorted path_lt paths ->
  (forall n, length (random n) = n) -> keeps_lengths t ->
  bind (fit (Some f) (FromMap init) random t) (fun s => fit (Some f) s random' u) = fit (Some f) (FromMap init) random (followed_by t u).
Proof. exact (@frozen_two). Qed.
Print Assumptions C168_two_frozen.
Example C168_case_two : StronglySorted path_lt [rs_p "bias"; rs_p "kernel"] /\
  bind (fit (Some rs_head) (FromMap rs_net) rs_zeros rs_train) (fun s => fit (Some rs_head) s rs_zeros rs_train) = fit (Some rs_head) (FromMap rs_net) rs_zeros (followed_by rs_train rs_train) /\
  is_ok (fit (Some rs_head) (FromMap rs_net) rs_zeros (followed_by rs_train rs_train)) = true.
Proof. split; [exact rs_sorted|]. split; vm_compute; reflexivity. Qed.

(** A freeze function given after a fit without one: training starts from the stored means and
    logarithms at the trainable paths; the other means are stored unchanged. *)
Theorem C168_then_frozen : forall V f (st : list (string * (tree (list V) * tree (list V)))) paths sizes random train, let means := wrap (first_components st) in let stds := wrap (second_components st) in
  by_path f -> unique_keys means -> get_trainable_paths means (Some f) = Ok paths -> arrays_at means paths sizes -> arrays_at stds paths sizes -> StronglySorted path_lt paths ->
  exists (m l : list V), ravel_paths means paths = Ok m /\ ravel_paths stds paths = Ok l /\
  fit (Some f) (FromPlain st) random train = bind (train m l) (fun w => rmap (FromPaths paths) (advi_state_paths means paths (fst w) (snd w))).
Proof. exact (@plain_then_frozen). Qed.
Print Assumptions C168_then_frozen.
Example C168_case_then_frozen : exists st st', fit None (FromMap rs_net) rs_zeros rs_train = Ok (FromPlain st) /\
  fit (Some rs_kernel) (FromPlain st) rs_zeros rs_train = Ok (FromPaths [rs_p "kernel"] st') /\
  leaf_at st' (rs_p "scale") [15; 16] /\ leaf_at st' (rs_p "kernel" ++ ["mean"]) [21; 22; 23] /\ leaf_at st' (rs_p "kernel" ++ ["log_std"]) [2; 2; 2].
Proof. do 2 eexists. split; [vm_compute; reflexivity|]. split; [vm_compute; reflexivity|]. repeat split. Qed.

(** A state stored with a freeze function cannot be continued without one: the vector of logarithms
    is shorter than that of the means. *)
Theorem C168_unfreeze_refuted : forall V (init : tree (list V)) paths sizes decoded mean log_std st random train q v, unique_keys init -> arrays_at init paths sizes ->
  Permutation paths decoded -> length mean = list_sum sizes -> length log_std = list_sum sizes -> advi_state_paths init paths mean log_std = Ok st ->
  leaf_at init q v -> v <> [] -> ~ In q paths -> keeps_lengths train ->
  exists e, fit None (FromPaths decoded st) random train = Err e.
Proof. exact (@frozen_then_plain). Qed.
Print Assumptions C168_unfreeze_refuted.
Example C168_case_unfreeze : exists st, fit (Some rs_head) (FromMap rs_net) rs_zeros rs_train = Ok (FromPaths [rs_p "bias"; rs_p "kernel"] st) /\
  fit None (FromPaths [rs_p "bias"; rs_p "kernel"] st) rs_zeros rs_train = Err ValueError.
Proof. eexists. split; vm_compute; reflexivity. Qed.

(** Nor with a freeze function that makes a frozen array trainable. *)
Theorem C168_wider_refuted : forall V f (init : tree (list V)) paths sizes decoded mean log_std st random train paths' sizes' q, by_path f -> unique_keys init -> arrays_at init paths sizes ->
  Permutation paths decoded -> length mean = list_sum sizes -> length log_std = list_sum sizes -> advi_state_paths init paths mean log_std = Ok st ->
  get_trainable_paths init (Some f) = Ok paths' -> arrays_at init paths' sizes' -> In q paths' -> ~ In q paths ->
  fit (Some f) (FromPaths decoded st) random train = Err KeyError.
Proof. exact (@frozen_then_wider). Qed.
Print Assumptions C168_wider_refuted.
Example C168_case_wider : exists st, fit (Some rs_kernel) (FromMap rs_net) rs_zeros rs_train = Ok (FromPaths [rs_p "kernel"] st) /\
  fit (Some rs_head) (FromPaths [rs_p "kernel"] st) rs_zeros rs_train = Err KeyError.
Proof. eexists. split; vm_compute; reflexivity. Qed.

(** When the trainable paths are not in sorted order, a fit without a single step stores other means
    than those it started from, and the next one others again. *)
Theorem C168_order_refuted : exists (init : tree (list nat)) f random paths st m d, by_path f /\ unique_keys init /\ get_trainable_paths init (Some f) = Ok paths /\
  (forall n, length (random n) = n) /\
  fit (Some f) (FromMap init) random no_steps = Ok (FromPaths paths st) /\ nested_unpair st paths ["mean"; "log_std"] = Ok (m, d) /\
  leaf_at init (rs_p "kernel") [1; 2] /\ leaf_at m (rs_p "kernel") [3; 1] /\
  exists st' m' d', fit (Some f) (FromPaths paths st) random no_steps = Ok (FromPaths paths st') /\ nested_unpair st' paths ["mean"; "log_std"] = Ok (m', d') /\
    leaf_at m' (rs_p "kernel") [2; 3].
Proof. exact order_refuted. Qed.
Print Assumptions C168_order_refuted.
