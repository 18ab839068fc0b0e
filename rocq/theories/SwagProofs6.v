(** The mean of SWAG is not the average of the iterates. *)
From Coq Require Import List Arith ZArith QArith Bool String Lia.
From Verif Require Import Lib QuantModel TrainModel TrainProofs4 McmcModel DescModel DescSpec DescCases SwagModel SwagSpec SwagCases.
Import ListNotations.
Open Scope list_scope.
Theorem average_refuted : exists s' w ms mvs,
  w_fit 2 no_h (t_cfg 3) w_batches None (t_state None) = Ok (s', [Some w], ms, mvs)
  /\ let at_ := fun e i => descend (gradient_update t_diff (fun g => g) t_opt (fun j => j)
        (fun key p m (b : Q * list Q) => (- (total_of (t_log_prob (fst (t_net p (Some key) true m (fst b))) (snd b)) * (inject_Z 2 / inject_Z (Z.of_nat (List.length (snd b)))) + - p * p))%Q)
        (fun key p m b => match m with Some _ => Some (snd (t_net p (Some key) true m (fst b))) | None => None end)) 0 (before e i w_batches) (0%Q, 0%nat, None) in
     let x := fun e i => fst (fst (at_ e (S i))) in
     (params s' == x 2%nat 1%nat)%Q /\ (sw_mean w * natq (3 ^ 2) == weighted 2 3 x)%Q /\ ~ (sw_mean w * natq (3 * 2) == sum_below 3 (fun e => sum_below 2 (x e)))%Q.
Proof.
  eexists _, _, _, _. split; [vm_compute; reflexivity|]. cbv zeta. idtac "a". split; [vm_compute; reflexivity|]. idtac "b". split; [vm_compute; reflexivity|]. idtac "c". vm_compute. discriminate.
Qed.
