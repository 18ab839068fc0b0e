(** Deep ensembles with frozen parameters after a preliminary run of MAP (C167). *)
From Coq Require Import List ZArith String.
From Verif Require Import Lib NestedModel NestedSpec FreezeModel FreezeSpec EnsModel EnsSpec EnsProofs EnsCases.
From Verif Require Import Lit TreeCases.
Import ListNotations.
Open Scope list_scope.
Local Notation length := List.length.

(** Members start from the MAP's frozen parameters and fresh trainable ones, and are trained by the
    optimizer of the preliminary run, on a state of the optimizer of the ensemble's configuration,
    continuing the MAP's step counter and mutable variables.  Frozen parameters stay those of the MAP. *)
Theorem C167_frozen_members {V M C B O OS L : Type} (o_init : O -> tree V -> OS) (o_update : O -> tree V -> OS -> tree V -> result (tree V * OS))
    (loss : nat -> tree V -> option M -> C -> B -> nat -> L * option M) (diff : (tree V -> L) -> tree V -> tree V)
    (gadd : tree V -> tree V -> result (tree V)) (gdiv : nat -> tree V -> tree V) (zeros : tree V -> tree V)
  cfg p f random passes size ms :
  fc_freeze cfg = Some f -> by_path f -> fc_accumulation cfg <= 1 -> pr_dumped p = false -> keeps_structure (o_update (fc_method (pr_cfg p))) ->
  ensemble_fit o_init o_update loss diff gadd gdiv zeros cfg (Some p) random passes size = Ok ms ->
  exists mst, map_fit o_init o_update loss diff gadd gdiv zeros (pr_cfg p) 0 (pr_batches p) (random 0) = Ok mst /\ length ms = size /\
  (parameters (t_params mst) -> labelled f (t_params mst) -> forall j, j < size -> same_structure (t_params mst) (st_params (random (S j))) ->
   exists s fr tr tr', nth_error ms j = Some s /\
    (forall q v, leaf_at fr q v <-> leaf_at (t_params mst) q v /\ f q v = "frozen"%string) /\
    (forall q v, leaf_at tr q v <-> leaf_at (st_params (random (S j))) q v /\ f q v = "trainable"%string) /\
    descent (o_update (fc_method (pr_cfg p))) (fc_clip cfg) diff (fun ps m b n => loss (S j) (get_all_params fr ps) m (st_calib (random 0)) b n) (passes j)
      (t_step mst, tr, o_init (fc_method cfg) tr, t_mutable mst) (t_step s, tr', t_opt s, t_mutable s) /\
    t_params s = get_all_params fr tr' /\
    (forall q v, leaf_at (t_params mst) q v -> f q v = "frozen"%string -> leaf_at (t_params s) q v) /\
    (forall q v, leaf_at (t_params mst) q v -> f q v = "trainable"%string -> exists w, leaf_at tr' q w /\ leaf_at (t_params s) q w)).
Proof. exact (@frozen_members V M C B O OS L o_init o_update loss diff gadd gdiv zeros cfg p f random passes size ms). Qed.
Print Assumptions C167_frozen_members.
(** toys that keep the structure of all trees *)
Example C167_case_toys : (forall lr, keeps_structure (tgd lr)) /\ (forall l, keeps (tdiff l)) /\ (forall f, keeps (tmap (V := Z) f)) /\ adds tadd /\ by_path ze_freeze /\
  tgd 3 (Dict [("w"%string, Leaf 2%Z)]) 0 (Dict [("w"%string, Leaf 10%Z)]) = Ok (Dict [("w"%string, Leaf 4%Z)], 1%Z).
Proof. split; [exact tgd_keeps|]. split; [exact tdiff_keeps|]. split; [exact tmap_keeps|]. split; [exact tadd_adds|]. split; [now intros p v w|reflexivity]. Qed.
Example C167_case_frozen_hypotheses : exists mst ms, te_map ze_loss (ze_cfg 1 false 1) 0 [1%Z] (ze_random 0) = Ok mst /\
  parameters (t_params mst) /\ labelled ze_freeze (t_params mst) /\ same_structure (t_params mst) (st_params (ze_random 1)) /\
  te_fit ze_loss (ze_cfg 3 true 1) (Some (ze_map_run 1 false 1)) ze_random (fun _ => [1; 1]%Z) 2 = Ok ms /\ length ms = 2.
Proof.
  eexists. eexists. split; [vm_compute; reflexivity|]. split; [split; [uniq|eexists; reflexivity]|]. split; [refine (leaves_by _ (fun q v => ze_freeze q v = "frozen"%string \/ ze_freeze q v = "trainable"%string) _); repeat (apply Forall_cons; [first [exact I | left; reflexivity | right; reflexivity]|]); apply Forall_nil|].
  split; [apply structure_by; reflexivity|]. split; [vm_compute; reflexivity|reflexivity].
Qed.

(** The optimizer of the ensemble's configuration matters only through its initial state. *)
Theorem C167_optimizer_ignored {V M C B O OS L : Type} (o_init : O -> tree V -> OS) (o_update : O -> tree V -> OS -> tree V -> result (tree V * OS))
    (loss : nat -> tree V -> option M -> C -> B -> nat -> L * option M) (diff : (tree V -> L) -> tree V -> tree V)
    (gadd : tree V -> tree V -> result (tree V)) (gdiv : nat -> tree V -> tree V) (zeros : tree V -> tree V)
  cfg m p f random passes size :
  fc_freeze cfg = Some f -> (forall t, o_init m t = o_init (fc_method cfg) t) ->
  ensemble_fit o_init o_update loss diff gadd gdiv zeros {| fc_method := m; fc_freeze := fc_freeze cfg; fc_accumulation := fc_accumulation cfg; fc_clip := fc_clip cfg |} (Some p) random passes size = ensemble_fit o_init o_update loss diff gadd gdiv zeros cfg (Some p) random passes size.
Proof. exact (@optimizer_ignored V M C B O OS L o_init o_update loss diff gadd gdiv zeros cfg m p f random passes size). Qed.
Print Assumptions C167_optimizer_ignored.

(** Without a freeze function the configuration of the preliminary run is ignored, and members are
    trained by their own optimizer from their own initialisation. *)
Theorem C167_without_freeze {V M C B O OS L : Type} (o_init : O -> tree V -> OS) (o_update : O -> tree V -> OS -> tree V -> result (tree V * OS))
    (loss : nat -> tree V -> option M -> C -> B -> nat -> L * option M) (diff : (tree V -> L) -> tree V -> tree V)
    (gadd : tree V -> tree V -> result (tree V)) (gdiv : nat -> tree V -> tree V) (zeros : tree V -> tree V)
  cfg prelim random passes size :
  fc_freeze cfg = None ->
  ensemble_fit o_init o_update loss diff gadd gdiv zeros cfg prelim random passes size = ensemble_fit o_init o_update loss diff gadd gdiv zeros cfg None random passes size /\
  forall ms, ensemble_fit o_init o_update loss diff gadd gdiv zeros cfg None random passes size = Ok ms -> fc_accumulation cfg <= 1 -> length ms = size /\
  forall j, j < size -> exists s, nth_error ms j = Some s /\ t_tx s = Some (fc_method cfg) /\
    descent (o_update (fc_method cfg)) (fc_clip cfg) diff (fun ps m b n => loss j ps m (st_calib (random j)) b n) (passes j)
      (0, st_params (random j), o_init (fc_method cfg) (st_params (random j)), st_mutable (random j)) (t_step s, t_params s, t_opt s, t_mutable s).
Proof. exact (@no_freeze_members V M C B O OS L o_init o_update loss diff gadd gdiv zeros cfg prelim random passes size). Qed.
Print Assumptions C167_without_freeze.

(** Without a preliminary run as well. *)
Theorem C167_without_preliminary {V M C B O OS L : Type} (o_init : O -> tree V -> OS) (o_update : O -> tree V -> OS -> tree V -> result (tree V * OS))
    (loss : nat -> tree V -> option M -> C -> B -> nat -> L * option M) (diff : (tree V -> L) -> tree V -> tree V)
    (gadd : tree V -> tree V -> result (tree V)) (gdiv : nat -> tree V -> tree V) (zeros : tree V -> tree V)
  cfg f random passes size ms :
  fc_freeze cfg = Some f -> by_path f -> fc_accumulation cfg <= 1 -> keeps_structure (o_update (fc_method cfg)) ->
  ensemble_fit o_init o_update loss diff gadd gdiv zeros cfg None random passes size = Ok ms -> length ms = size /\
  forall j, j < size -> parameters (st_params (random j)) -> exists s fr tr tr', nth_error ms j = Some s /\
    (forall q v, leaf_at fr q v <-> leaf_at (st_params (random j)) q v /\ f q v = "frozen"%string) /\
    (forall q v, leaf_at tr q v <-> leaf_at (st_params (random j)) q v /\ f q v = "trainable"%string) /\
    descent (o_update (fc_method cfg)) (fc_clip cfg) diff (fun ps m b n => loss j (get_all_params fr ps) m (st_calib (random j)) b n) (passes j)
      (0, tr, o_init (fc_method cfg) tr, st_mutable (random j)) (t_step s, tr', t_opt s, t_mutable s) /\
    t_params s = get_all_params fr tr' /\
    (forall q v, leaf_at (st_params (random j)) q v -> f q v = "frozen"%string -> leaf_at (t_params s) q v) /\
    (forall q v, leaf_at (st_params (random j)) q v -> f q v = "trainable"%string -> exists w, leaf_at tr' q w /\ leaf_at (t_params s) q w).
Proof. exact (@own_members V M C B O OS L o_init o_update loss diff gadd gdiv zeros cfg f random passes size ms). Qed.
Print Assumptions C167_without_preliminary.

(** A smaller ensemble is the beginning of a larger one. *)
Theorem C167_prefix {V M C B O OS L : Type} (o_init : O -> tree V -> OS) (o_update : O -> tree V -> OS -> tree V -> result (tree V * OS))
    (loss : nat -> tree V -> option M -> C -> B -> nat -> L * option M) (diff : (tree V -> L) -> tree V -> tree V)
    (gadd : tree V -> tree V -> result (tree V)) (gdiv : nat -> tree V -> tree V) (zeros : tree V -> tree V)
  cfg prelim random passes n k ms :
  ensemble_fit o_init o_update loss diff gadd gdiv zeros cfg prelim random passes (n + k) = Ok ms -> ensemble_fit o_init o_update loss diff gadd gdiv zeros cfg prelim random passes n = Ok (firstn n ms).
Proof. exact (@prefixes V M C B O OS L o_init o_update loss diff gadd gdiv zeros cfg prelim random passes n k ms). Qed.
Print Assumptions C167_prefix.

(** SGHMC and cyclical SGLD start with their own integrator, whatever the preliminary run. *)
Theorem C167_samplers {V M C B O OS L : Type} (o_init : O -> tree V -> OS) (o_update : O -> tree V -> OS -> tree V -> result (tree V * OS))
    (loss : nat -> tree V -> option M -> C -> B -> nat -> L * option M) (diff : (tree V -> L) -> tree V -> tree V)
    (gadd : tree V -> tree V -> result (tree V)) (gdiv : nat -> tree V -> tree V) (zeros : tree V -> tree V)
  cfg prelim random s :
  chain_state o_init o_update loss diff gadd gdiv zeros cfg prelim random = Ok s ->
  t_tx s = Some (fc_method cfg) /\ t_step s = 0 /\ t_grad s = None /\
  (fc_freeze cfg = None -> t_opt s = o_init (fc_method cfg) (t_params s)) /\
  (forall f, fc_freeze cfg = Some f -> parameters (t_params s) -> labelled f (t_params s) ->
     exists tr, (forall q v, leaf_at tr q v <-> leaf_at (t_params s) q v /\ f q v = "trainable"%string) /\ t_opt s = o_init (fc_method cfg) tr).
Proof. exact (@chain_own V M C B O OS L o_init o_update loss diff gadd gdiv zeros cfg prelim random s). Qed.
Print Assumptions C167_samplers.

(** They start from the frozen parameters of the MAP and newly initialised trainable ones. *)
Theorem C167_samplers_start {V M C B O OS L : Type} (o_init : O -> tree V -> OS) (o_update : O -> tree V -> OS -> tree V -> result (tree V * OS))
    (loss : nat -> tree V -> option M -> C -> B -> nat -> L * option M) (diff : (tree V -> L) -> tree V -> tree V)
    (gadd : tree V -> tree V -> result (tree V)) (gdiv : nat -> tree V -> tree V) (zeros : tree V -> tree V)
  cfg prelim random s :
  chain_state o_init o_update loss diff gadd gdiv zeros cfg prelim random = Ok s ->
  match prelim, fc_freeze cfg with
  | Some p, Some f => exists mst, map_fit o_init o_update loss diff gadd gdiv zeros (pr_cfg p) 0 (pr_batches p) (random 0) = Ok mst /\ t_mutable s = t_mutable mst /\ t_calib s = st_calib (random 0) /\
      (by_path f -> parameters (t_params mst) -> labelled f (t_params mst) -> same_structure (t_params mst) (st_params (random 1)) ->
       parameters (t_params s) /\ labelled f (t_params s) /\
       (forall q v, leaf_at (t_params s) q v /\ f q v = "frozen"%string <-> leaf_at (t_params mst) q v /\ f q v = "frozen"%string) /\
       (forall q v, leaf_at (t_params s) q v /\ f q v = "trainable"%string <-> leaf_at (st_params (random 1)) q v /\ f q v = "trainable"%string))
  | _, _ => t_params s = st_params (random 0) /\ t_mutable s = st_mutable (random 0) /\ t_calib s = st_calib (random 0)
  end.
Proof. exact (@chain_start V M C B O OS L o_init o_update loss diff gadd gdiv zeros cfg prelim random s). Qed.
Print Assumptions C167_samplers_start.

(** When the preliminary run dumps its state, fitting fails. *)
Theorem C167_dumped_refuted {V M C B O OS L : Type} (o_init : O -> tree V -> OS) (o_update : O -> tree V -> OS -> tree V -> result (tree V * OS))
    (loss : nat -> tree V -> option M -> C -> B -> nat -> L * option M) (diff : (tree V -> L) -> tree V -> tree V)
    (gadd : tree V -> tree V -> result (tree V)) (gdiv : nat -> tree V -> tree V) (zeros : tree V -> tree V)
  cfg p f random passes size mst b bs :
  fc_freeze cfg = Some f -> by_path f -> pr_dumped p = true -> 0 < size -> passes 0 = b :: bs ->
  map_fit o_init o_update loss diff gadd gdiv zeros (pr_cfg p) 0 (pr_batches p) (random 0) = Ok mst -> parameters (t_params mst) -> labelled f (t_params mst) -> same_structure (t_params mst) (st_params (random 1)) ->
  ensemble_fit o_init o_update loss diff gadd gdiv zeros cfg (Some p) random passes size = Err AttributeError.
Proof. exact (@dumped V M C B O OS L o_init o_update loss diff gadd gdiv zeros cfg p f random passes size mst b bs). Qed.
Print Assumptions C167_dumped_refuted.

(** When both runs accumulate gradients, fitting fails. *)
Theorem C167_accumulated_refuted {V M C B O OS L : Type} (o_init : O -> tree V -> OS) (o_update : O -> tree V -> OS -> tree V -> result (tree V * OS))
    (loss : nat -> tree V -> option M -> C -> B -> nat -> L * option M) (diff : (tree V -> L) -> tree V -> tree V)
    (gadd : tree V -> tree V -> result (tree V)) (gdiv : nat -> tree V -> tree V) (zeros : tree V -> tree V)
  cfg p f random passes size mst b bs q v :
  fc_freeze cfg = Some f -> by_path f -> pr_dumped p = false -> fc_freeze (pr_cfg p) = None ->
  1 < fc_accumulation cfg -> 1 < fc_accumulation (pr_cfg p) -> pr_batches p <> [] -> 0 < size -> passes 0 = b :: bs ->
  (forall l, keeps (diff l)) -> keeps (fc_clip (pr_cfg p)) -> (forall n, keeps (gdiv n)) -> keeps zeros -> adds gadd -> keeps_structure (o_update (fc_method (pr_cfg p))) ->
  unique_keys (st_params (random 0)) -> map_fit o_init o_update loss diff gadd gdiv zeros (pr_cfg p) 0 (pr_batches p) (random 0) = Ok mst -> parameters (t_params mst) -> labelled f (t_params mst) -> same_structure (t_params mst) (st_params (random 1)) ->
  leaf_at (t_params mst) q v -> f q v = "frozen"%string ->
  ensemble_fit o_init o_update loss diff gadd gdiv zeros cfg (Some p) random passes size = Err ValueError.
Proof. exact (@accumulated V M C B O OS L o_init o_update loss diff gadd gdiv zeros cfg p f random passes size mst b bs q v). Qed.
Print Assumptions C167_accumulated_refuted.
Example C167_case_accumulated_hypotheses : exists mst, te_map ze_loss (ze_cfg 1 false 2) 0 [1%Z] (ze_random 0) = Ok mst /\
  parameters (t_params mst) /\ labelled ze_freeze (t_params mst) /\ same_structure (t_params mst) (st_params (ze_random 1)) /\
  leaf_at (t_params mst) ["a"%string] 2%Z /\ ze_freeze ["a"%string] 2%Z = "frozen"%string /\
  te_fit ze_loss (ze_cfg 3 true 2) (Some (ze_map_run 1 false 2)) ze_random (fun _ => [1; 1]%Z) 2 = Err ValueError.
Proof.
  eexists. split; [vm_compute; reflexivity|]. split; [split; [uniq|eexists; reflexivity]|]. split; [refine (leaves_by _ (fun q v => ze_freeze q v = "frozen"%string \/ ze_freeze q v = "trainable"%string) _); repeat (apply Forall_cons; [first [exact I | left; reflexivity | right; reflexivity]|]); apply Forall_nil|].
  split; [apply structure_by; reflexivity|]. vm_compute. repeat split.
Qed.

(** The optimizer of the ensemble's configuration is not the one that trains its members. *)
Theorem C167_optimizer_refuted : exists s, ze_fit (ze_cfg 3 true 1) (Some (ze_map_run 1 false 1)) ze_random (fun _ => [1; 1]%Z) 1 = Ok [s] /\
  forall s', descent (B := Z) (ze_update 3) (fun t => t) ze_diff (fun p m b n => ze_loss 1 (get_all_params (Dict [("a"%string, Leaf 1%Z)]) p) m tt b n) [1; 1]%Z
    (1, Dict [("w"%string, Leaf 10%Z)], 0%Z, None) s' -> get_all_params (Dict [("a"%string, Leaf 1%Z)]) (snd (fst (fst s'))) <> t_params s.
Proof. exact ze_refuted. Qed.
Print Assumptions C167_optimizer_refuted.

(** learning rate 3, but 10 goes to 8: the rate of the preliminary run *)
Example C167_case_frozen : rmap (map (fun s => (t_step s, t_params s, t_opt s))) (ze_fit (ze_cfg 3 true 1) (Some (ze_map_run 1 false 1)) ze_random (fun _ => [1; 1]%Z) 2)
  = Ok [(3, ze_params 1 8, 2%Z); (3, ze_params 1 18, 2%Z)].
Proof. vm_compute. reflexivity. Qed.
Example C167_case_rate_ignored : ze_fit (ze_cfg 7 true 1) (Some (ze_map_run 1 false 1)) ze_random (fun _ => [1; 1]%Z) 1
  = rmap (firstn 1) (ze_fit (ze_cfg 3 true 1) (Some (ze_map_run 1 false 1)) ze_random (fun _ => [1; 1]%Z) 2).
Proof. vm_compute. reflexivity. Qed.
Example C167_case_own : rmap (map (fun s => (t_step s, t_params s, t_tx s))) (ze_fit (ze_cfg 3 true 1) None ze_random (fun _ => [1; 1]%Z) 2)
  = Ok [(2, ze_params 2 (-11), Some 3%Z); (2, ze_params 5 (-20), Some 3%Z)].
Proof. vm_compute. reflexivity. Qed.
Example C167_case_without_freeze : rmap (map (fun s => t_params s)) (ze_fit (ze_cfg 3 false 1) (Some (ze_map_run 1 true 1)) ze_random (fun _ => [1; 1]%Z) 2)
  = Ok [ze_params 14 (-2); ze_params (-10) 70].
Proof. vm_compute. reflexivity. Qed.
Example C167_case_dumped : ze_fit (ze_cfg 3 true 1) (Some (ze_map_run 1 true 1)) ze_random (fun _ => [1; 1]%Z) 2 = Err AttributeError.
Proof. vm_compute. reflexivity. Qed.
Example C167_case_accumulated : ze_fit (ze_cfg 3 true 2) (Some (ze_map_run 1 false 2)) ze_random (fun _ => [1; 1]%Z) 2 = Err ValueError.
Proof. vm_compute. reflexivity. Qed.
Example C167_case_samplers : rmap (fun s => (t_params s, t_opt s, t_tx s)) (ze_chain (ze_cfg 3 true 2) (Some (ze_map_run 1 true 1)) ze_random) = Ok (ze_params 1 10, 0%Z, Some 3%Z).
Proof. vm_compute. reflexivity. Qed.
