(** Proofs about several calibrations. *)
From Coq Require Import List Arith ZArith QArith Bool String Lia.
From Verif Require Import Lib QuantModel TrainModel TrainSpec TrainProofs4 CalibModel CalibSpec DescSpec DescProofs FlowProofs3 CalRunModel CalRunProofs CalRunProofs2 RecalModel RecalSpec.
Import ListNotations.
Open Scope list_scope.
Local Notation length := List.length.

Section Recal.
Context {P X C O T G OS Pr U : Type}.
Variables (predict : O -> Pr) (uncertainty : O -> U) (diff : (P -> Q) -> P -> G) (calibrator : option (P -> bool -> option C -> O -> O * C)).
Variables (log_prob : O -> list T -> list Q) (log_mean_exp : list Q -> Q) (mean_outputs : list O -> O) (mean_mutable : list C -> C).
Hypothesis ext : forall f g p, (forall q, f q = g q) -> diff f p = diff g p.
Notation call := (pm_call P X O T G OS Pr U).
Notation one := (pm_calibrate predict uncertainty diff calibrator log_prob log_mean_exp mean_outputs mean_mutable).
Notation many := (pm_calibrations predict uncertainty diff calibrator log_prob log_mean_exp mean_outputs mean_mutable).
Notation cstep := (call_step (C := C) diff calibrator log_prob log_mean_exp).

Lemma one_descent (k : call) p m p' m' : plain m -> one k (p, m) = Ok (p', m') ->
  exists n, (n <= c_epochs (p_cfg k))%nat /\ (is_active (c_stop (p_cfg k)) = false -> n = c_epochs (p_cfg k)) /\ p' = fst (descend (fun _ => cstep k) 0 (passes n (call_pairs k)) (p, o_init (p_opt k) p)) /\ plain m'.
Proof.
  intros M H. unfold pm_calibrate in H. cbn [fst snd] in H. match type of H with bind ?r _ = _ => destruct r as [[[s ms] mvs]|] eqn:E; [|discriminate] end. cbn [bind] in H. injection H as <- <-.
  destruct (ensemble_calibration P X C O T G OS Pr U predict uncertainty diff (o_step (p_opt k)) calibrator log_prob log_mean_exp mean_outputs mean_mutable (p_size k) (p_val_size k) (p_metrics k) (p_training_metrics k) (p_monitor k) (p_cfg k) (p_data k) (p_outs k) (p_val k) (calib_state (p_opt k) p m) s ms mvs ext M E) as (A1 & A2 & A3 & A4 & _).
  cbv zeta in A3. rewrite before_0 in A3. cbn [calib_state params opt_state step] in A3. exists (length ms). split; [exact A1|]. split; [exact A2|]. split; [|exact A4].
  apply (f_equal fst) in A3. cbn [fst] in A3. rewrite A3. reflexivity.
Qed.
Theorem staged (l : list call) : forall p m p' m', plain m -> many l (p, m) = Ok (p', m') ->
  exists ns, Forall2 (fun k n => (n <= c_epochs (p_cfg k))%nat /\ (is_active (c_stop (p_cfg k)) = false -> n = c_epochs (p_cfg k))) l ns /\ p' = stages diff calibrator log_prob log_mean_exp l ns p /\ plain m'.
Proof.
  induction l as [|k l IH]; intros p m p' m' M H; cbn [pm_calibrations] in H. { injection H as <- <-. exists []. split; [constructor|]. auto. }
  destruct (one k (p, m)) as [[p1 m1]|] eqn:E; [|discriminate]. cbn [bind] in H. destruct (one_descent k p m p1 m1 M E) as (n & A & B & E1 & M1). destruct (IH p1 m1 p' m' M1 H) as (ns & F & E2 & M2).
  exists (n :: ns). split; [constructor; auto|]. split; [|exact M2]. cbn [stages]. now rewrite <- E1.
Qed.

(** ---- one longer calibration ---- *)
Lemma one_works (k : call) p m : plain m -> is_active (c_stop (p_cfg k)) = false -> p_data k <> [] -> p_outs k <> [] -> (forall vb vo, p_val k = Some (vb, vo) -> vb <> [] /\ vo <> []) -> exists r, one k (p, m) = Ok r.
Proof.
  intros M A D N V. destruct (calibrations_succeed P unit X C O T G OS Pr U predict uncertainty diff (o_step (p_opt k)) (p_monitor k) (p_cfg k)) as [_ S]; [congruence|].
  destruct (S calibrator log_prob log_mean_exp mean_outputs mean_mutable (p_size k) (p_val_size k) (p_metrics k) (p_training_metrics k) (p_data k) (p_outs k) (p_val k) (calib_state (p_opt k) p m) M D N V) as [[[s ms] mvs] E].
  unfold pm_calibrate. cbn [fst snd]. rewrite E. cbn [bind]. eauto.
Qed.
Lemma descend_any {St B} (f : St -> B -> St) bs : forall j s, descend (fun _ => f) j bs s = fold_left f bs s.
Proof. induction bs as [|b bs IH]; intros j s; [reflexivity|]. apply IH. Qed.
Lemma passes_add {B} m n (bs : list B) : passes (m + n) bs = passes m bs ++ passes n bs.
Proof. unfold passes. now rewrite repeat_app, concat_app. Qed.
Lemma kept_state (k : call) bs : no_memory (p_opt k) -> forall x, snd (fold_left (cstep k) bs x) = snd x.
Proof. intros [_ N]. induction bs as [|b bs IH]; intros x; [reflexivity|]. cbn [fold_left]. rewrite IH. apply N. Qed.
Theorem one_longer (k : call) p m ns : plain m -> no_memory (p_opt k) -> is_active (c_stop (p_cfg k)) = false -> p_data k <> [] -> p_outs k <> [] -> (forall vb vo, p_val k = Some (vb, vo) -> vb <> [] /\ vo <> []) ->
  exists p' m1 m2, many (map (for_epochs k) ns) (p, m) = Ok (p', m1) /\ one (for_epochs k (list_sum ns)) (p, m) = Ok (p', m2).
Proof.
  intros M NM A D N V.
  assert (W : forall n q u, plain u -> exists u', one (for_epochs k n) (q, u) = Ok (fst (fold_left (cstep k) (passes n (call_pairs k)) (q, o_init (p_opt k) q)), u') /\ plain u').
  { intros n q u Hu. destruct (one_works (for_epochs k n) q u Hu A D N V) as [[q' u'] E]. destruct (one_descent (for_epochs k n) q u q' u' Hu E) as (n' & _ & E1 & E2 & M'). cbn [for_epochs p_cfg c_epochs c_stop] in E1. rewrite (E1 A) in E2. rewrite descend_any in E2. exists u'. split; [|exact M']. rewrite E, E2. reflexivity. }
  exists (fst (fold_left (cstep k) (passes (list_sum ns) (call_pairs k)) (p, o_init (p_opt k) p))). destruct (W (list_sum ns) p m M) as (m2 & E2 & _).
  enough (Y : exists m1, many (map (for_epochs k) ns) (p, m) = Ok (fst (fold_left (cstep k) (passes (list_sum ns) (call_pairs k)) (p, o_init (p_opt k) p)), m1)) by (destruct Y as [m1 Y]; exists m1, m2; auto).
  clear m2 E2. revert p m M. induction ns as [|n ns IH]; intros p m M; [exists m; reflexivity|]. cbn [map pm_calibrations]. destruct (W n p m M) as (u & E & Hu). rewrite E. cbn [bind].
  set (p1 := fst (fold_left (cstep k) (passes n (call_pairs k)) (p, o_init (p_opt k) p))). destruct (IH p1 u Hu) as [m1 E1]. rewrite E1. exists m1. unfold p1. clear E1. f_equal. f_equal. change (list_sum (n :: ns)) with (n + list_sum ns)%nat. rewrite passes_add, fold_left_app. f_equal.
  destruct (fold_left (cstep k) (passes n (call_pairs k)) (p, o_init (p_opt k) p)) as [q os] eqn:F. cbn [fst]. f_equal. f_equal.
  assert (K := kept_state k (passes n (call_pairs k)) NM (p, o_init (p_opt k) p)). rewrite F in K. cbn [snd] in K. rewrite K. apply NM.
Qed.
End Recal.

Section Outputs.
Context {P C O T G OS Pr U : Type}.
Variables (predict : O -> Pr) (uncertainty : O -> U) (diff : (P -> Q) -> P -> G) (calibrator : option (P -> bool -> option C -> O -> O * C)) (loss_fn : O -> T -> Q).
Hypothesis ext : forall f g p, (forall q, f q = g q) -> diff f p = diff g p.
Notation many := (oc_calibrations predict uncertainty diff calibrator loss_fn).
Lemma many_app (l l' : list (oc_call P C O T G OS Pr U)) : forall st, many (l ++ l') st = bind (many l st) (many l').
Proof. induction l as [|k l IH]; intros st; [reflexivity|]. cbn [app oc_calibrations]. destruct (oc_calibrate _ _ _ _ _ k st); [apply IH|reflexivity]. Qed.
Theorem last_alone (l : list (oc_call P C O T G OS Pr U)) k st r : mutable (oc_start k) = Some None -> many (l ++ [k]) st = Ok r ->
  let p0 := match q_checkpoint k with None => fst (q_init k) | Some s => params s end in
  let n0 := match q_checkpoint k with None => 0%nat | Some s => step s end in
  exists s n, r = Some s /\ (n <= c_epochs (q_cfg k))%nat /\ (is_active (c_stop (q_cfg k)) = false -> n = c_epochs (q_cfg k)) /\ step s = (n0 + n)%nat /\
    (params s, opt_state s) = times n (fun x => o_step (q_opt k) (diff (fun q => loss_fn (match calibrator with None => q_outputs k | Some f => fst (f q true None (q_outputs k)) end) (q_targets k)) (fst x)) (snd x) (fst x)) (p0, o_init (q_opt k) p0).
Proof.
  intros M H. rewrite many_app in H. destruct (many l st) as [st1|]; [|discriminate]. cbn [bind oc_calibrations] in H. unfold oc_calibrate in H.
  match type of H with bind (bind ?r _) _ = _ => destruct r as [[[s ms] mvs]|] eqn:E; [|discriminate] end. cbn [bind] in H. injection H as <-.
  destruct (full_calibration P C O T G OS Pr U predict uncertainty diff (o_step (q_opt k)) calibrator loss_fn (q_metrics k) (q_training_metrics k) (q_monitor k) (q_cfg k) (q_targets k) (q_outputs k) (q_val k) _ s ms mvs ext M E) as (A1 & A2 & A3 & A4 & A5 & _).
  intros p0 n0. exists s, (length ms). split; [reflexivity|]. split; [exact A1|]. split; [exact A2|]. split.
  - rewrite A5. unfold n0, oc_start. now destruct (q_checkpoint k).
  - rewrite A3. unfold p0, oc_start. now destruct (q_checkpoint k).
Qed.
End Outputs.
