(** Fits of deep ensembles that continue an earlier fit (C174). *)
From Coq Require Import List ZArith String.
From Verif Require Import Lib NestedModel NestedSpec FreezeModel FreezeSpec EnsModel EnsSpec ContModel ContSpec EnsContModel EnsContSpec EnsContProofs EnsCases ContCases EnsContCases.
From Verif Require Import Lit TreeCases.
Import ListNotations.
Open Scope list_scope.
Local Notation length := List.length.

(** After any number of fits each member is what its own fits make of it, and no other member, as
    fits of MAP on its own batches and keys. *)
Theorem C174_members {V M C B O OS L : Type} (o_init : O -> tree V -> OS) (o_update : O -> tree V -> OS -> tree V -> result (tree V * OS))
    (loss : nat -> tree V -> option M -> C -> B -> nat -> L * option M) (diff : (tree V -> L) -> tree V -> tree V)
    (gadd : tree V -> tree V -> result (tree V)) (gdiv : nat -> tree V -> tree V) (zeros : tree V -> tree V)
  (l : list (ens_args V B O)) run (ms ms' : list (tstate V M C O OS)) :
  continue_ensemble o_init o_update loss diff gadd gdiv zeros l run ms = Ok ms' <->
  length ms' = length ms /\
  forall j s, nth_error ms j = Some s -> exists s', fits o_init o_update loss diff gadd gdiv zeros (own_fits (length ms) j l run) s = Ok s' /\ nth_error ms' j = Some s'.
Proof. exact (@members_alone V M C B O OS L o_init o_update loss diff gadd gdiv zeros l run ms ms'). Qed.
Print Assumptions C174_members.
Example C174_case_members : exists ms', ec_continue [ec_args (ze_cfg 3 true 1) [1%Z]; ec_args (ze_cfg 1 false 1) [1; 2]%Z] 4 [cz_start 5 7; cz_start 2 1] = Ok ms' /\
  map t_step ms' = [3; 3] /\ length (own_fits 2 1 [ec_args (ze_cfg 3 true 1) [1%Z]; ec_args (ze_cfg 1 false 1) [1; 2]%Z] 4) = 2 /\
  map a_run (own_fits 2 1 [ec_args (ze_cfg 3 true 1) [1%Z]; ec_args (ze_cfg 1 false 1) [1; 2]%Z] 4) = [5; 7].
Proof. eexists. split; [vm_compute; reflexivity|]. repeat split; reflexivity. Qed.

(** After a fit with a preliminary run of MAP and any number of fits that continue it, all members still
    share the MAP's values of parameters which every fit froze, and their step counters have gone on from
    the MAP's. *)
Theorem C174_shared {V M C B O OS L : Type} (o_init : O -> tree V -> OS) (o_update : O -> tree V -> OS -> tree V -> result (tree V * OS))
    (loss : nat -> tree V -> option M -> C -> B -> nat -> L * option M) (diff : (tree V -> L) -> tree V -> tree V)
    (gadd : tree V -> tree V -> result (tree V)) (gdiv : nat -> tree V -> tree V) (zeros : tree V -> tree V)
  cfg p f random passes size ms mst (l : list (ens_args V B O)) run (ms' : list (tstate V M C O OS)) :
  fc_freeze cfg = Some f -> by_path f -> fc_accumulation cfg <= 1 -> pr_dumped p = false -> keeps_structure (o_update (fc_method (pr_cfg p))) ->
  (forall a, In a l -> keeps_structure (o_update (fc_method (e_cfg a)))) ->
  ensemble_fit o_init o_update loss diff gadd gdiv zeros cfg (Some p) random passes size = Ok ms ->
  map_fit o_init o_update loss diff gadd gdiv zeros (pr_cfg p) 0 (pr_batches p) (random 0) = Ok mst ->
  parameters (t_params mst) -> labelled f (t_params mst) -> (forall j, j < size -> same_structure (t_params mst) (st_params (random (S j)))) ->
  continue_ensemble o_init o_update loss diff gadd gdiv zeros l run ms = Ok ms' ->
  length ms' = size /\ forall j, j < size -> exists s, nth_error ms' j = Some s /\
    t_step s = t_step mst + length (passes j) + list_sum (map (fun a => length (e_passes a j)) l) /\
    forall q v, leaf_at (t_params mst) q v -> f q v = "frozen"%string ->
      (forall a, In a l -> exists g, fc_freeze (e_cfg a) = Some g /\ g q v = "frozen"%string) -> leaf_at (t_params s) q v.
Proof. exact (@frozen_through V M C B O OS L o_init o_update loss diff gadd gdiv zeros cfg p f random passes size ms mst l run ms'). Qed.
Print Assumptions C174_shared.
(** with C167_case_toys and C167_case_frozen_hypotheses *)
Example C174_case_shared : exists ms ms' mst, te_fit ze_loss (ze_cfg 3 true 1) (Some (ze_map_run 1 false 1)) ze_random (fun _ => [1; 1]%Z) 2 = Ok ms /\
  te_map ze_loss (ze_cfg 1 false 1) 0 [1%Z] (ze_random 0) = Ok mst /\
  (forall j, j < 2 -> same_structure (t_params mst) (st_params (ze_random (S j)))) /\
  te_continue [ec_args (ze_cfg 3 true 1) [1%Z]; ec_args (ze_cfg 2 true 1) [1; 2]%Z] 3 ms = Ok ms' /\
  map (fun s => ze_get "a" (t_params s)) ms' = [1; 1]%Z /\ ze_get "a" (t_params mst) = 1%Z /\ map t_step ms' = [6; 6].
Proof.
  do 3 eexists. split; [vm_compute; reflexivity|]. split; [vm_compute; reflexivity|]. split. { intros j Hj. apply structure_by. destruct j as [|[|j]]; [reflexivity|reflexivity|Lia.lia]. }
  split; [vm_compute; reflexivity|]. repeat split; vm_compute; reflexivity.
Qed.

(** After a preliminary run of MAP, a fit and its continuation with the same configuration are not one
    longer fit, even if the optimizers have no state: the first fit trains with the optimizer of the
    preliminary run, the continued fit with its own. *)
Theorem C174_longer_refuted : exists cfg p ms m1 m2, (forall lr, stateless ze_init cz_plain lr) /\ fc_freeze cfg = Some ze_freeze /\ fc_accumulation cfg = 1 /\
  ec_fit cfg (Some p) ze_random (fun _ => [1; 1]%Z) 1 = Ok [m2] /\ ec_fit cfg (Some p) ze_random (fun _ => [1%Z]) 1 = Ok ms /\
  ec_continue [ec_args cfg [1%Z]] 2 ms = Ok [m1] /\
  t_step m1 = t_step m2 /\ t_params m1 <> t_params m2.
Proof. exact longer_refuted. Qed.
Print Assumptions C174_longer_refuted.
Example C174_case_longer : fc_method (ze_cfg 3 true 1) = 3%Z /\ fc_method (pr_cfg (ze_map_run 1 false 1)) = 1%Z.
Proof. split; reflexivity. Qed.
