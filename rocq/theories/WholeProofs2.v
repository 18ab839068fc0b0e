(** Proofs about sessions with one member (WholeModel.v). *)
From Coq Require Import List Arith ZArith QArith Bool String Lia.
From Verif Require Import Lib MetricSpec QuantModel PredModel PredSpec LikModel CalibModel TrainModel TrainSpec TrainProofs4 CalibSpec DescModel DescSpec DescProofs2 DescProofs3 DescProofs4 CalRunModel CalRunProofs2 DrawModel DrawSpec DrawProofs DrawProofs2 DrawProofs3 LoaderProofs WholeModel WholeProofs.
Import ListNotations.
Open Scope list_scope.
Local Notation length := List.length.
Local Notation concat := List.concat.

Lemma over_const n v : (over n (fun _ => v) == nQ n * v)%Q.
Proof.
  unfold over, MetricSpec.total. replace (nQ n) with (nQ (length (seq 0 n))) by now rewrite seq_length.
  induction (seq 0 n) as [|a l IH]; cbn [map fold_right List.length]; [unfold nQ; cbn; ring|].
  rewrite IH. unfold nQ. rewrite Nat2Z.inj_succ, <- Z.add_1_r, inject_Z_plus. ring.
Qed.
Lemma nQ_pos n : (1 <= n)%nat -> ~ (nQ n == 0)%Q.
Proof. intros N. unfold nQ. change 0%Q with (inject_Z 0). rewrite inject_Z_injective. lia. Qed.
Lemma average_const n v : (1 <= n)%nat -> (average n (fun _ => v) == v)%Q.
Proof. intros N. unfold average. rewrite over_const. field. now apply nQ_pos. Qed.
Lemma over_compat n f g : (forall i, f i == g i)%Q -> (over n f == over n g)%Q.
Proof. intros H. unfold over, MetricSpec.total. induction (seq 0 n) as [|a l IH]; cbn; [reflexivity|]. now rewrite IH, H. Qed.
Lemma spread_const n v : (1 <= n)%nat -> (spread n (fun _ => v) == 0)%Q.
Proof.
  intros N. unfold spread. rewrite (over_compat n _ (fun _ => 0%Q)); [rewrite over_const; field; now apply nQ_pos|].
  intros i. rewrite average_const by auto. ring.
Qed.

Section Session.
Context {P M X T Y K G OS Pr Un C CM CG COS CPr CUn : Type}.
Context (row : P -> option M -> X -> Y) (net_train : P -> option K -> option M -> list X -> list Y * M) (net_mutable : P -> option M -> list X -> M)
  (has_calibrator : bool) (cal_row : C -> option CM -> Y -> Y) (cal_train : C -> option CM -> list Y -> list Y * CM) (cal_mutable : C -> option CM -> list Y -> CM)
  (predict : list Y -> Pr) (fold_in : nat -> nat -> K) (diff : (P -> Q) -> P -> G) (gadd : G -> G -> G) (gdiv : G -> nat -> G) (zeros_like : G -> G) (clip_by : Q -> G -> G)
  (opt : G -> OS -> P -> P * OS) (opt_init : P -> OS) (log_prior : P -> Q) (log_prob : list Y -> list T -> list Q)
  (metrics : option (list (Pr -> option Un -> list T -> Q))) (training_metrics : bool) (h : hyper) (monitor : list Q -> option Q) (cfg : config)
  (choice : key -> nat -> nat) (label : nat -> nat) (cpredict : list Y -> CPr) (cuncertainty : list Y -> CUn)
  (cdiff : (C -> Q) -> C -> CG) (copt : CG -> COS -> C -> C * COS) (copt_init : C -> COS)
  (log_mean_exp : list Q -> Q) (mean_outputs : list (list Y) -> list Y) (mean_mutable : list CM -> CM)
  (cmetrics : option (list (CPr -> CUn -> list T -> Q))) (ctraining_metrics : bool) (cmonitor : list Q -> option Q) (ccfg : cconfig) (n_samples : nat)
  (mean_of var_of : Y -> Q).
Hypothesis Hdiff : forall f g p, (forall q, f q = g q) -> diff f p = diff g p.
Hypothesis Hcdiff : forall f g p, (forall q, f q = g q) -> cdiff f p = cdiff g p.
Hypothesis Hacc : forall a, h_accumulation h = Some a -> (a <= 1)%nat.
Hypothesis Hchoice : forall k n, (1 <= n)%nat -> (choice k n < n)%nat.

Notation member := (member P M C CM).
Notation fit_member := (fit_member P M X T Y K G OS Pr Un C CM row net_train net_mutable has_calibrator cal_row cal_train cal_mutable predict fold_in diff gadd gdiv zeros_like clip_by opt opt_init log_prior log_prob metrics training_metrics h monitor cfg).
Notation fit_posterior := (fit_posterior P M X T Y K G OS Pr Un C CM row net_train net_mutable has_calibrator cal_row cal_train cal_mutable predict fold_in diff gadd gdiv zeros_like clip_by opt opt_init log_prior log_prob metrics training_metrics h monitor cfg).
Notation calibrate := (calibrate P M X T Y C CM CG COS CPr CUn row has_calibrator cal_row cal_train cal_mutable log_prob choice label cpredict cuncertainty cdiff copt copt_init log_mean_exp mean_outputs mean_mutable cmetrics ctraining_metrics cmonitor ccfg n_samples).

Notation session_train := (session_train row net_train net_mutable has_calibrator cal_row cal_train cal_mutable predict fold_in diff gadd gdiv zeros_like clip_by opt opt_init log_prior log_prob metrics training_metrics h monitor cfg
  choice label cpredict cuncertainty cdiff copt copt_init log_mean_exp mean_outputs mean_mutable cmetrics ctraining_metrics cmonitor ccfg n_samples).
Notation draw_member := (draw_member P M C CM choice).

Theorem map_predictions : forall init train val calib g fits cfit ms g', (forall j, plain (init j)) ->
  session_train MapPosterior init train val calib g = Ok (fits, cfit, (ms, g')) ->
  exists m, ms = [m] /\
  let out := fun x => let y := row (mb_params m) (mb_mutable m) x in if has_calibrator then cal_row (mb_calib m) None y else y in
  forall distribute devices n rng (loader : list (list X)), (1 <= n)%nat -> divisible distribute devices loader ->
  (exists rows, session_mean row has_calibrator cal_row choice label mean_of MapPosterior distribute devices n rng (ms, g') loader = (Ok rows, generator_after label rng g')
     /\ Forall2 (fun r x => r == mean_of (out x))%Q rows (concat loader))
  /\ (exists rows, session_variance row has_calibrator cal_row choice label mean_of var_of MapPosterior distribute devices n rng (ms, g') loader = (Ok rows, generator_after label rng g')
     /\ Forall2 (fun r x => r == var_of (out x))%Q rows (concat loader)).
Proof.
  intros init train val calib g fits cfit ms g' PL E. apply session_trained in E; auto. destruct E as (_ & L & _ & _ & _ & E). cbn [members_of] in L, E.
  destruct ms as [|m [|m2 r]]; [discriminate L| |cbn in L; discriminate L]. exists m. split; [reflexivity|]. intros out distribute devices n rng loader N D.
  destruct (E 0%nat) as (m' & N0 & _ & _ & _ & PM); [lia|]. cbn in N0. injection N0 as <-.
  assert (O : forall k x, calibrated_row P M X Y C CM row has_calibrator cal_row (draw_member MapPosterior [m] m k) x = out x).
  { intros k x. cbn. unfold calibrated_row, out. destruct has_calibrator; [|reflexivity]. destruct PM as [-> | ->]; reflexivity. }
  unfold session_mean, session_variance, session_predict. cbn [fst snd]. split.
  - destruct (mean_rows label _ _ _ (draw_member MapPosterior [m] m) (calibrated_row P M X Y C CM row has_calibrator cal_row) mean_of var_of distribute devices n rng g' loader N D) as [(rows & R1 & R2) _].
    exists rows. split; [exact R1|]. eapply Forall2_imp; [|exact R2]. intros r x H. cbv beta in H. rewrite H. unfold row_mean, draw.
    rewrite (average_ext n _ (fun _ => mean_of (out x))); [now apply average_const|]. intros i. now rewrite O.
  - destruct (variance_rows label _ _ _ (draw_member MapPosterior [m] m) (calibrated_row P M X Y C CM row has_calibrator cal_row) mean_of var_of distribute devices n rng g' loader N D) as (rows & R1 & R2).
    exists rows. split; [exact R1|]. eapply Forall2_imp; [|exact R2]. intros r x H. cbv beta in H. rewrite H. unfold row_mean, row_spread, draw.
    rewrite (average_ext n _ (fun _ => var_of (out x))) by (intros; now rewrite O). rewrite (spread_ext n _ (fun _ => mean_of (out x))) by (intros; now rewrite O).
    rewrite average_const, spread_const by auto. ring.
Qed.

Theorem one_member : forall init train val calib g,
  session_train (EnsemblePosterior 1) init train val calib g = session_train MapPosterior init train val calib g.
Proof.
  intros init train val calib g. unfold WholeModel.session_train, pm_train.
  change (WholeModel.fit_posterior P M X T Y K G OS Pr Un C CM row net_train net_mutable has_calibrator cal_row cal_train cal_mutable predict fold_in diff gadd gdiv zeros_like clip_by opt opt_init log_prior log_prob metrics training_metrics h monitor cfg (EnsemblePosterior 1))
    with (fit_posterior MapPosterior).
  destruct (fit_posterior MapPosterior init train val) as [fitted|e]; cbn [bind]; [|reflexivity].
  destruct calib as [[|b0 l]|]; cbn [option_map List.length]; try reflexivity.
  assert (H : calibrate (EnsemblePosterior 1) (b0 :: l) val g (map fst fitted) = calibrate MapPosterior (b0 :: l) val g (map fst fitted)); [|now rewrite H].
  unfold WholeModel.calibrate. destruct (negb has_calibrator); [reflexivity|]. destruct (map fst fitted) as [|d rest]; [reflexivity|].
  assert (O : forall g l, outputs_loader label (draw_member (EnsemblePosterior 1) (d :: rest) d) (raw_row P M X Y C CM row) false 1 n_samples None g l
      = outputs_loader label (draw_member MapPosterior (d :: rest) d) (raw_row P M X Y C CM row) false 1 n_samples None g l).
  { intros g0 l0. rewrite !outputs_loader_rows. f_equal. f_equal. apply map_ext. intros xs. apply map_ext. intros i. unfold draw, WholeModel.draw_member.
    specialize (Hchoice (key_of label None g0 ++ [Cut (label n_samples) i]) 1%nat (le_n 1)). replace (choice _ 1%nat) with 0%nat by lia. reflexivity. }
  rewrite O. destruct (outputs_loader label (draw_member MapPosterior (d :: rest) d) _ _ _ _ _ _ _) as [outs g1].
  destruct outs as [outs|e]; cbn [bind]; [|reflexivity]. destruct val as [v|]; [rewrite O|]; reflexivity.
Qed.
End Session.
