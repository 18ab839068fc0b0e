(** Proofs of the examples of TfmHeadProps.v. *)
From Coq Require Import List Arith Bool Reals Lra Lia.
From Verif Require Import Lib LapModel SngpModel TempSpec PredSpec SngpSpec LapProofs2 SngpProofs TfmModel TfmHeadModel TfmHeadSpec TfmHeadCases TfmHeadProofs.
Import ListNotations.
Open Scope R_scope.

Lemma q_values : exists f g f' g', let e := fun train => q_encode (fill_inputs DistilBert 1 2 (fun ids => ids) q_text) train in
  features DistilBert 1 q_kernel q_bias (/ 2) false q_keep (e false) = Ok [f; g] /\ f 0%nat = / 2 /\ g 0%nat = 0 /\
  features DistilBert 1 q_kernel q_bias (/ 2) true q_keep (e true) = Ok [f'; g'] /\ f' 0%nat = 1 /\ g' 0%nat = 0.
Proof.
  do 4 eexists. cbv zeta. split; [reflexivity|].
  cbn [fst snd]. unfold dropout, dense, kernel_apply, q_kernel, q_bias, activation, q_keep. change isum with rover. unfold rover, rtotal. cbn [negb seq map fold_right].
  split; [cbn [INR]; rewrite Rmax_left; lra|]. split; [cbn [INR]; rewrite Rmax_right; lra|]. split; [reflexivity|].
  cbn [fst snd]. unfold dropout, dense, kernel_apply, q_kernel, q_bias, activation, q_keep. change isum with rover. unfold rover, rtotal. cbn [negb seq map fold_right Nat.eqb].
  destruct (Req_EM_T (/ 2) 0), (Req_EM_T (/ 2) 1); try lra. split; [cbn [INR]; rewrite Rmax_left; lra|reflexivity].
Qed.
Lemma q_gain : gain_at_most 1 1 q_kernel (/ 2).
Proof.
  intros x. unfold norm, inner, rover, rtotal, q_kernel. cbn [seq map fold_right].
  replace ((x 0%nat * / 2 + 0) * (x 0%nat * / 2 + 0) + 0) with (Rsqr (x 0%nat * / 2)) by (unfold Rsqr; ring).
  replace (x 0%nat * x 0%nat + 0) with (Rsqr (x 0%nat)) by (unfold Rsqr; ring). rewrite !sqrt_Rsqr_abs, Rabs_mult, (Rabs_right (/ 2)) by lra. lra.
Qed.
Lemma q_tuple : exists fs rest m, q_manager Bert false true = Ok (Tuple_out fs rest, Some m).
Proof. do 3 eexists. reflexivity. Qed.
Lemma q_plain : exists fs, q_manager Roberta true true = Ok (Plain_out fs, Some 9%nat) /\ length fs = 2%nat.
Proof. eexists. split; reflexivity. Qed.
Lemma q_inputs : filled_with 1 (t_ids q_text) [[1; 1]; [1; 1]]%nat /\ filled_with 0 (t_ids q_text) [[0; 0]; [0; 0]]%nat /\ numbered (t_ids q_text) [[0; 1]; [0; 1]]%nat /\
  Forall (fun r => length r = 2%nat /\ Forall (eq 1%nat) r) [[1; 1]]%nat.
Proof.
  unfold filled_with, numbered. cbn [q_text t_ids]. repeat split; repeat constructor; intros k Hk; destruct k as [|[|k]]; try reflexivity; cbn in Hk; lia.
Qed.
