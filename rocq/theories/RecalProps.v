(** Several calibrations after each other (C176). *)
From Coq Require Import List Arith ZArith QArith Bool String.
From Verif Require Import Lib QuantModel TrainModel TrainSpec TrainProofs4 CalibModel CalibSpec DescSpec CalRunModel RecalModel RecalSpec RecalProofs DescCases CalRunCases RecalCases.
Import ListNotations.
Open Scope list_scope.
Local Notation length := List.length.

(** C176: each calibration of a posterior goes down from the parameters of the calibration before, with a new state of its own
    optimizer, for its epochs or fewer with early stopping *)
Theorem C176_posterior : forall (P X C O T G OS Pr U : Type) (predict : O -> Pr) (uncertainty : O -> U) (diff : (P -> Q) -> P -> G) (calibrator : option (P -> bool -> option C -> O -> O * C))
    (log_prob : O -> list T -> list Q) log_mean_exp mean_outputs mean_mutable,
  (forall f g p, (forall q, f q = g q) -> diff f p = diff g p) ->
  forall (l : list (pm_call P X O T G OS Pr U)) p m p' m', plain m ->
  pm_calibrations predict uncertainty diff calibrator log_prob log_mean_exp mean_outputs mean_mutable l (p, m) = Ok (p', m') ->
  exists ns, Forall2 (fun k n => (n <= c_epochs (p_cfg k))%nat /\ (is_active (c_stop (p_cfg k)) = false -> n = c_epochs (p_cfg k))) l ns /\
    p' = stages diff calibrator log_prob log_mean_exp l ns p /\ plain m'.
Proof. exact (@staged). Qed.
Print Assumptions C176_posterior.
Example C176_case_posterior : (forall f g p, (forall q, f q = g q) -> t_diff f p = t_diff g p) /\ plain (Some (@None (cmut nat))) /\
  (exists p m, r_posterior [r_call r_falling 1; r_call r_plain 1] 0 = Ok (p, m) /\ p = stages t_diff (Some k_f) t_log_prob k_mean [r_call r_falling 1; r_call r_plain 1] [1; 1]%nat 0%Q /\ ~ (p == 0)%Q).
Proof. split; [intros f g p H; unfold t_diff; now rewrite !H|]. split; [now right|]. eexists _, _. split; [vm_compute; reflexivity|]. split; [vm_compute; reflexivity|]. discriminate. Qed.

(** C176: with an optimizer without state, without early stopping and on the same data and outputs, calibrations after each
    other are one longer calibration *)
Theorem C176_longer : forall (P X C O T G OS Pr U : Type) (predict : O -> Pr) (uncertainty : O -> U) (diff : (P -> Q) -> P -> G) (calibrator : option (P -> bool -> option C -> O -> O * C))
    (log_prob : O -> list T -> list Q) log_mean_exp mean_outputs mean_mutable,
  (forall f g p, (forall q, f q = g q) -> diff f p = diff g p) ->
  forall (k : pm_call P X O T G OS Pr U) p m ns, plain m -> no_memory (p_opt k) -> is_active (c_stop (p_cfg k)) = false -> p_data k <> [] -> p_outs k <> [] ->
  (forall vb vo, p_val k = Some (vb, vo) -> vb <> [] /\ vo <> []) ->
  exists p' m1 m2, pm_calibrations predict uncertainty diff calibrator log_prob log_mean_exp mean_outputs mean_mutable (map (for_epochs k) ns) (p, m) = Ok (p', m1) /\
    pm_calibrate predict uncertainty diff calibrator log_prob log_mean_exp mean_outputs mean_mutable (for_epochs k (list_sum ns)) (p, m) = Ok (p', m2).
Proof. exact (@one_longer). Qed.
Print Assumptions C176_longer.
Example C176_case_longer : no_memory r_plain /\ is_active (c_stop (k_cfg 1)) = false /\ map (for_epochs (r_call r_plain 5)) [1; 2]%nat = [r_call r_plain 1; r_call r_plain 2] /\
  rmap fst (r_posterior [r_call r_plain 1; r_call r_plain 2] 0) = rmap fst (r_posterior [r_call r_plain 3] 0).
Proof. split; [exact r_no_memory|]. do 2 (split; [reflexivity|]). vm_compute. reflexivity. Qed.
(** C176: not with a state, which every calibration starts anew *)
Theorem C176_reset_refuted : exists p1 p2 m1 m2, r_posterior [r_call r_falling 1; r_call r_falling 1] 0 = Ok (p1, m1) /\ r_posterior [r_call r_falling 2] 0 = Ok (p2, m2) /\ ~ (p1 == p2)%Q.
Proof. exact posterior_reset. Qed.
Print Assumptions C176_reset_refuted.

(** C176: a calibration of given outputs starts from its checkpoint or from new parameters, whatever calibrations came
    before *)
Theorem C176_outputs : forall (P C O T G OS Pr U : Type) (predict : O -> Pr) (uncertainty : O -> U) (diff : (P -> Q) -> P -> G) (calibrator : option (P -> bool -> option C -> O -> O * C)) (loss_fn : O -> T -> Q),
  (forall f g p, (forall q, f q = g q) -> diff f p = diff g p) ->
  forall (l : list (oc_call P C O T G OS Pr U)) k stored r,
  mutable (oc_start k) = Some None -> oc_calibrations predict uncertainty diff calibrator loss_fn (l ++ [k]) stored = Ok r ->
  let p0 := match q_checkpoint k with None => fst (q_init k) | Some s => params s end in
  let n0 := match q_checkpoint k with None => 0%nat | Some s => step s end in
  exists s n, r = Some s /\ (n <= c_epochs (q_cfg k))%nat /\ (is_active (c_stop (q_cfg k)) = false -> n = c_epochs (q_cfg k)) /\ step s = (n0 + n)%nat /\
    (params s, opt_state s) = times n (fun x => o_step (q_opt k) (diff (fun q => loss_fn (match calibrator with None => q_outputs k | Some f => fst (f q true None (q_outputs k)) end) (q_targets k)) (fst x)) (snd x) (fst x)) (p0, o_init (q_opt k) p0).
Proof. exact (@last_alone). Qed.
Print Assumptions C176_outputs.
Example C176_case_outputs : exists s s', r_outputs [r_given r_falling 2 None; r_given r_falling 1 None] = Ok (Some s) /\ step s = 1%nat /\ opt_state s = 1%nat /\ mutable (oc_start (r_given r_falling 1 (Some s))) = Some None /\
  r_outputs [r_given r_falling 2 (Some s)] = Ok (Some s') /\ step s' = 3%nat /\ opt_state s' = 2%nat.
Proof. eexists _, _. split; [vm_compute; reflexivity|]. do 3 (split; [reflexivity|]). split; [vm_compute; reflexivity|]. split; reflexivity. Qed.
(** C176: so that calibrating twice is not calibrating longer, even for optimizers without state *)
Theorem C176_outputs_refuted : exists s1 s2, r_outputs [r_given r_plain 1 None; r_given r_plain 1 None] = Ok (Some s1) /\ r_outputs [r_given r_plain 1 None] = Ok (Some s1) /\
  r_outputs [r_given r_plain 2 None] = Ok (Some s2) /\ ~ (params s1 == params s2)%Q.
Proof. exact outputs_forget. Qed.
Print Assumptions C176_outputs_refuted.
