(** Early stopping of samplers. *)
From Coq Require Import List Arith ZArith QArith Bool String Lia.
From Verif Require Import Lib QuantModel TrainModel TrainProofs4 McmcModel DescModel DescCases SwagCases ChainModel ChainCases.
Import ListNotations.
Open Scope list_scope.
(** every validation finds a higher log joint probability, and the run is stopped for lack of improvement *)
Theorem stopping_refuted : exists s' kept ms mvs,
  n_sghmc 5 1 0 (n_cfg 5 (Some 2%Z)) w_batch (Some w_batch) (t_state None) = Ok (s', kept, ms, mvs)
  /\ (forall e v w, nth_error mvs e = Some [v] -> nth_error mvs (S e) = Some [w] -> (v < w)%Q)
  /\ List.length mvs = 4%nat /\ (List.length ms < 5)%nat /\ (List.length kept < 5)%nat.
Proof.
  eexists _, _, _, _. split; [vm_compute; reflexivity|]. split; [|vm_compute; repeat split; lia].
  intros e v w. destruct e as [|[|[|[|e]]]]; cbn [nth_error]; intros E1 E2; try discriminate; try (destruct e; discriminate); injection E1 as <-; injection E2 as <-; vm_compute; reflexivity.
Qed.
