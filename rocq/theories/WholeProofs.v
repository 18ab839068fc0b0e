(** Proofs about whole sessions (WholeModel.v). *)
From Coq Require Import List Arith ZArith QArith Bool String Lia.
From Verif Require Import Lib QuantModel PredModel PredSpec LikModel CalibModel TrainModel TrainSpec TrainProofs4 CalibSpec DescModel DescSpec DescProofs2 DescProofs3 DescProofs4 CalRunModel CalRunProofs2 DrawModel DrawSpec DrawProofs DrawProofs2 DrawProofs3 LoaderProofs WholeModel.
Import ListNotations.
Open Scope list_scope.
Local Notation length := List.length.
Local Notation concat := List.concat.

Lemma size_of_eq : forall X T (l : list (list X * list T)), size_of X T l = length (concat (map fst l)).
Proof.
  intros X T l. unfold size_of.
  assert (H : forall n, fold_left (fun n (b : list X * list T) => (n + length (fst b))%nat) l n = (n + length (concat (map fst l)))%nat).
  { induction l as [|b r IH]; intros n; cbn [fold_left map List.concat]; [cbn; lia|]. rewrite IH, app_length. lia. }
  rewrite H. reflexivity.
Qed.

Lemma over_ext n f g : (forall i, f i = g i) -> over n f = over n g.
Proof. intros H. unfold over. f_equal. apply map_ext. exact H. Qed.
Lemma average_ext n f g : (forall i, f i = g i) -> average n f = average n g.
Proof. intros H. unfold average. now rewrite (over_ext n f g H). Qed.
Lemma spread_ext n f g : (forall i, f i = g i) -> spread n f = spread n g.
Proof. intros H. unfold spread. f_equal. apply over_ext. intros i. now rewrite H, (average_ext n f g H). Qed.

Lemma Forall2_imp A B (R1 R2 : A -> B -> Prop) l m : (forall a b, R1 a b -> R2 a b) -> Forall2 R1 l m -> Forall2 R2 l m.
Proof. intros H F. induction F; constructor; auto. Qed.

Section Session.
Context {P M X T Y K G OS Pr Un C CM CG COS CPr CUn : Type}.
Context (row : P -> option M -> X -> Y) (net_train : P -> option K -> option M -> list X -> list Y * M) (net_mutable : P -> option M -> list X -> M)
  (has_calibrator : bool) (cal_row : C -> option CM -> Y -> Y) (cal_train : C -> option CM -> list Y -> list Y * CM) (cal_mutable : C -> option CM -> list Y -> CM)
  (predict : list Y -> Pr) (fold_in : nat -> nat -> K) (diff : (P -> Q) -> P -> G) (gadd : G -> G -> G) (gdiv : G -> nat -> G) (zeros_like : G -> G) (clip_by : Q -> G -> G)
  (opt : G -> OS -> P -> P * OS) (opt_init : P -> OS) (log_prior : P -> Q) (log_prob : list Y -> list T -> list Q)
  (metrics : option (list (Pr -> option Un -> list T -> Q))) (training_metrics : bool) (h : hyper) (monitor : list Q -> option Q) (cfg : config)
  (choice : key -> nat -> nat) (label : nat -> nat) (cpredict : list Y -> CPr) (cuncertainty : list Y -> CUn)
  (cdiff : (C -> Q) -> C -> CG) (copt : CG -> COS -> C -> C * COS) (copt_init : C -> COS)
  (log_mean_exp : list Q -> Q) (mean_outputs : list (list Y) -> list Y) (mean_mutable : list CM -> CM)
  (cmetrics : option (list (CPr -> CUn -> list T -> Q))) (ctraining_metrics : bool) (cmonitor : list Q -> option Q) (ccfg : cconfig) (n_samples : nat)
  (mean_of var_of : Y -> Q).
Hypothesis Hdiff : forall f g p, (forall q, f q = g q) -> diff f p = diff g p.
Hypothesis Hcdiff : forall f g p, (forall q, f q = g q) -> cdiff f p = cdiff g p.
Hypothesis Hacc : forall a, h_accumulation h = Some a -> (a <= 1)%nat.
Hypothesis Hchoice : forall k n, (1 <= n)%nat -> (choice k n < n)%nat.

Notation member := (member P M C CM).
Notation fit_member := (fit_member P M X T Y K G OS Pr Un C CM row net_train net_mutable has_calibrator cal_row cal_train cal_mutable predict fold_in diff gadd gdiv zeros_like clip_by opt opt_init log_prior log_prob metrics training_metrics h monitor cfg).
Notation fit_posterior := (fit_posterior P M X T Y K G OS Pr Un C CM row net_train net_mutable has_calibrator cal_row cal_train cal_mutable predict fold_in diff gadd gdiv zeros_like clip_by opt opt_init log_prior log_prob metrics training_metrics h monitor cfg).
Notation calibrate := (calibrate P M X T Y C CM CG COS CPr CUn row has_calibrator cal_row cal_train cal_mutable log_prob choice label cpredict cuncertainty cdiff copt copt_init log_mean_exp mean_outputs mean_mutable cmetrics ctraining_metrics cmonitor ccfg n_samples).

Definition plain (m : member) : Prop := mb_calib_mutable m = None \/ mb_calib_mutable m = Some None.
Definition scaled (n : nat) (ys : list T) : Q := (inject_Z (Z.of_nat n) / inject_Z (Z.of_nat (length ys)))%Q.
Definition clip (g : G) : G := match h_norm h with Some b => if Qlt_le_dec 0 b then clip_by b g else g | None => g end.
Definition fitted_outputs (c : C) (ys : list Y) : list Y := if has_calibrator then map (cal_row c None) ys else ys.
Definition update (train : list (list X * list T)) (c : C) (j : nat) : nat -> P * OS * option M -> list X * list T -> P * OS * option M :=
  gradient_update diff clip opt (fold_in j)
    (fun key p m b => (- (total_of (log_prob (fitted_outputs c (fst (net_train p (Some key) m (fst b)))) (snd b)) * scaled (length (concat (map fst train))) (snd b) + log_prior p))%Q)
    (fun key p m b => match m with Some _ => Some (snd (net_train p (Some key) m (fst b))) | None => None end).
Definition trained (train : list (list X * list T)) (j : nat) (b : member) (e : nat) : P * OS * option M :=
  descend (update train (mb_calib b) j) 0 (passes e train) (mb_params b, opt_init (mb_params b), mb_mutable b).

Lemma fit_member_spec : forall q train val j b m ms mvs, plain b ->
  fit_member q train val j b = Ok (m, (ms, mvs)) ->
  (length ms <= n_epochs cfg)%nat /\ (is_active (stop_config cfg) = false -> length ms = n_epochs cfg)
  /\ mb_params m = fst (fst (trained train j b (length ms))) /\ mb_mutable m = snd (trained train j b (length ms))
  /\ mb_calib m = mb_calib b /\ mb_calib_mutable m = mb_calib_mutable b.
Proof.
  intros q train val j b m ms mvs PL E. unfold WholeModel.fit_member in E.
  destruct (fit _ _ _ _ _ _ _ _ _ _ _ _ _ _ _ _ _ _ _ _ _ _ _ _ _ _) as [[[s a] v]|e] eqn:F; cbn [bind] in E; [|discriminate].
  injection E as <- <- <-. cbn [mb_params mb_mutable mb_calib mb_calib_mutable].
  apply map_fit in F; [|exact Hdiff|destruct q; auto|exact Hacc]. cbv zeta in F. cbn [params opt_state mutable step] in F.
  destruct F as (F1 & F2 & F3 & _). split; [exact F1|]. split; [exact F2|].
  assert (U : (params s, opt_state s, mutable s) = trained train j b (length a)).
  { rewrite F3. unfold trained, before. cbn [firstn]. rewrite app_nil_r. apply descend_ext. intros i [[p o] mu] [xs ys]. unfold update, gradient_update, clip, fitted_outputs, scaled. rewrite size_of_eq. cbn [fst snd]. unfold network. f_equal.
    apply f_equal3; auto. destruct (h_norm h) as [b0|]; [destruct (Qlt_le_dec 0 b0); [f_equal|]|].
    all: apply Hdiff; intros p'; unfold calibrator; destruct has_calibrator; cbn [option_map]; [|reflexivity];
      unfold manager_of, calibrate_outputs; cbn [fst snd]; destruct PL as [PL|PL]; rewrite PL; reflexivity. }
  rewrite <- U. auto.
Qed.

Definition ensemble (n : nat) (k : key) (post : key -> member) (b : list X * list T) : list (list Y) :=
  map (fun i => map (fun x => row (mb_params (post (k ++ [Cut (label n) i]))) (mb_mutable (post (k ++ [Cut (label n) i]))) x) (fst b)) (seq 0 n).
Definition cupdate (calib : list (list X * list T)) : nat -> C * COS -> list X * list T * list (list Y) -> C * COS :=
  fun _ x b => copt (cdiff (fun c => (- log_mean_exp (map (fun o => total_of (log_prob (fst (cal_train c None o)) (snd (fst b))) * scaled (length (concat (map fst calib))) (snd (fst b))) (snd b)))%Q) (fst x)) (snd x) (fst x).
Definition calibrated (calib : list (list X * list T)) (k : key) (post : key -> member) (c0 : C) (e : nat) : C * COS :=
  descend (cupdate calib) 0 (passes e (map (fun b => (b, ensemble n_samples k post b)) calib)) (c0, copt_init c0).

Lemma calibrate_spec : forall q calib val g d rest cs ms g', has_calibrator = true -> plain d ->
  calibrate q calib val g (d :: rest) = Ok (cs, ms, g') ->
  exists cms cmvs c cm, cs = Some (cms, cmvs) /\ (length cms <= c_epochs ccfg)%nat /\ (is_active (c_stop ccfg) = false -> length cms = c_epochs ccfg)
  /\ c = fst (calibrated calib (g ++ [Cut (label 2) 0]) (draw_member P M C CM choice q (d :: rest) d) (mb_calib d) (length cms))
  /\ (cm = None \/ cm = Some None)
  /\ ms = map (fun m => {| mb_params := mb_params m; mb_mutable := mb_mutable m; mb_calib := c; mb_calib_mutable := cm |}) (d :: rest)
  /\ g' = g ++ repeat (Cut (label 2) 0) (match val with Some _ => 3 | None => 2 end).
Proof.
  intros q calib val g d rest cs ms g' HC PL E. unfold WholeModel.calibrate in E. rewrite HC in E. cbn [negb] in E.
  rewrite outputs_loader_rows in E. cbn [bind] in E. cbn [key_of generator_after] in E.
  set (outs := map _ (map fst calib)) in E.
  assert (EO : combine calib outs = map (fun b => (b, ensemble n_samples (g ++ [Cut (label 2) 0]) (draw_member P M C CM choice q (d :: rest) d) b)) calib).
  { unfold outs. rewrite map_map. clear E outs. induction calib as [|b l IH]; [reflexivity|]. cbn [map combine]. f_equal. exact IH. }
  assert (F : exists vouts, (let '(vouts, g2) := match val with
        | None => (Ok None, g ++ [Cut (label 2) 0])
        | Some v => let '(r, g2) := outputs_loader label (draw_member P M C CM choice q (d :: rest) d) (raw_row P M X Y C CM row) false 1 n_samples None (g ++ [Cut (label 2) 0]) (map fst v) in (rmap (fun o => Some (v, o)) r, g2)
        end in (vouts, g2)) = (Ok vouts, g ++ repeat (Cut (label 2) 0) (match val with Some _ => 2 | None => 1 end))).
  { destruct val as [v|].
    - rewrite outputs_loader_rows. cbn [rmap generator_after repeat]. eexists. rewrite <- app_assoc. reflexivity.
    - eexists. reflexivity. }
  destruct F as [vouts F].
  destruct (match val with Some _ => _ | None => _ end) as [vr g2]. injection F as -> ->. cbn [bind] in E.
  destruct (cal_run _ _ _ _ _ _ _ _ _ _ _ _ _ _ _ _ _ _ _ _ _ _) as [[[s cms] cmvs]|e] eqn:R; cbn [bind] in E; [|discriminate].
  injection E as <- <- <-. unfold calibrator in R. cbn [negb] in R.
  apply ensemble_calibration in R; [|exact Hcdiff|exact PL]. cbv zeta in R. cbn [params opt_state mutable step] in R.
  destruct R as (R1 & R2 & R3 & R4 & _). exists cms, cmvs, (params s), (mutable s).
  split; [reflexivity|]. split; [exact R1|]. split; [exact R2|]. split.
  { change (params s) with (fst (params s, opt_state s)). rewrite R3. unfold calibrated, before. cbn [firstn]. rewrite app_nil_r, EO. f_equal.
    apply descend_ext. intros j x [[xs ys] o]. unfold cupdate, scaled. cbn [fst snd]. rewrite size_of_eq. f_equal. apply Hcdiff. intros c. f_equal. f_equal.
    rewrite map_map. reflexivity. }
  split; [exact R4|]. split; [reflexivity|].
  unfold child. rewrite <- app_assoc. f_equal. destruct val; reflexivity.
Qed.

(** ---- a whole session ---- *)
Definition chosen (q : posterior) (k : key) : nat := match q with MapPosterior => 0%nat | EnsemblePosterior n => choice k n end.
Notation session_train := (session_train row net_train net_mutable has_calibrator cal_row cal_train cal_mutable predict fold_in diff gadd gdiv zeros_like clip_by opt opt_init log_prior log_prob metrics training_metrics h monitor cfg
  choice label cpredict cuncertainty cdiff copt copt_init log_mean_exp mean_outputs mean_mutable cmetrics ctraining_metrics cmonitor ccfg n_samples).
Notation draw_member := (draw_member P M C CM choice).

Lemma chosen_lt : forall q k, (1 <= members_of q)%nat -> (chosen q k < members_of q)%nat.
Proof. intros [|n] k L; cbn in *; [lia|auto]. Qed.
Lemma draw_member_nth : forall q ms d k, draw_member q ms d k = nth (chosen q k) ms d.
Proof. intros [|n]; reflexivity. Qed.

Lemma fit_posterior_spec : forall q init train val fitted, (forall j, plain (init j)) ->
  fit_posterior q init train val = Ok fitted ->
  length fitted = members_of q
  /\ forall j, (j < members_of q)%nat -> exists m r, nth_error fitted j = Some (m, r)
     /\ (length (fst r) <= n_epochs cfg)%nat /\ (is_active (stop_config cfg) = false -> length (fst r) = n_epochs cfg)
     /\ mb_params m = fst (fst (trained train j (init j) (length (fst r)))) /\ mb_mutable m = snd (trained train j (init j) (length (fst r)))
     /\ mb_calib m = mb_calib (init j) /\ plain m.
Proof.
  intros q init train val fitted PL E. unfold WholeModel.fit_posterior in E. apply mapM_ok_inv in E.
  assert (L : length fitted = members_of q).
  { clear - E. pose proof (QuantProofs.Forall2_len _ _ _ E) as H. rewrite seq_length in H. auto. }
  split; [exact L|]. intros j J.
  destruct (nth_error fitted j) as [[m r]|] eqn:N; [|apply nth_error_None in N; lia].
  exists m, r. split; [reflexivity|].
  assert (F : fit_member q train val j (init j) = Ok (m, r)).
  { revert E N J. generalize (members_of q). intros n. 
    assert (H : forall l s, Forall2 (fun x y => fit_member q train val x (init x) = Ok y) (seq s n) l -> nth_error l j = Some (m, r) -> (j < n)%nat -> fit_member q train val (s + j)%nat (init (s + j)%nat) = Ok (m, r)).
    { clear. revert j. induction n as [|n IH]; intros j l s F N J; [lia|]. cbn [seq] in F. inversion F as [|x y lx ly H1 H2 E1 E2]; subst.
      destruct j as [|j]; cbn in N; [injection N as ->; now rewrite Nat.add_0_r|]. rewrite <- Nat.add_succ_comm. eapply IH; eauto. lia. }
    intros F N J. now apply (H fitted 0%nat). }
  destruct r as [ms mvs]. apply fit_member_spec in F; [|apply PL]. cbn [fst]. destruct F as (F1 & F2 & F3 & F4 & F5 & F6). repeat split; auto.
  unfold plain. rewrite F6. apply PL.
Qed.

Definition raw_at (train : list (list X * list T)) (init : nat -> member) (epochs : nat -> nat) (j : nat) (x : X) : Y :=
  let '(p, _, m) := trained train j (init j) (epochs j) in row p m x.
Definition calibrating (calib : option (list (list X * list T))) : bool := has_calibrator && match calib with Some (_ :: _) => true | _ => false end.
Definition final_calib q train (init : nat -> member) epochs (calib : option (list (list X * list T))) cepochs (g : key) (j : nat) : C :=
  if calibrating calib then
    fst (descend (cupdate (match calib with Some l => l | None => [] end)) 0
      (passes cepochs (map (fun b => (b, map (fun i => map (raw_at train init epochs (chosen q (g ++ [Cut (label 2) 0; Cut (label n_samples) i]))) (fst b)) (seq 0 n_samples))) (match calib with Some l => l | None => [] end)))
      (mb_calib (init 0%nat), copt_init (mb_calib (init 0%nat))))
  else mb_calib (init j).

Theorem session_trained : forall q init train val calib g fits cfit ms g', (forall j, plain (init j)) ->
  session_train q init train val calib g = Ok (fits, cfit, (ms, g')) ->
  let epochs := fun j => length (fst (nth j fits ([], []))) in
  let cepochs := match cfit with Some r => length (fst r) | None => 0%nat end in
  length fits = members_of q /\ length ms = members_of q
  /\ (forall j, (j < members_of q)%nat -> (epochs j <= n_epochs cfg)%nat /\ (is_active (stop_config cfg) = false -> epochs j = n_epochs cfg))
  /\ (if calibrating calib then cfit <> None /\ (cepochs <= c_epochs ccfg)%nat /\ (is_active (c_stop ccfg) = false -> cepochs = c_epochs ccfg) else cfit = None)
  /\ g' = g ++ repeat (Cut (label 2) 0) (if calibrating calib then match val with Some _ => 3 | None => 2 end else 0)
  /\ (forall j, (j < members_of q)%nat -> exists m, nth_error ms j = Some m
       /\ mb_params m = fst (fst (trained train j (init j) (epochs j))) /\ mb_mutable m = snd (trained train j (init j) (epochs j))
       /\ mb_calib m = final_calib q train init epochs calib cepochs g j /\ plain m).
Proof.
  intros q init train val calib g fits cfit ms g' PL E epochs cepochs. unfold WholeModel.session_train, pm_train in E.
  destruct (fit_posterior q init train val) as [fitted|e] eqn:F; cbn [bind] in E; [|discriminate].
  apply fit_posterior_spec in F; auto. destruct F as [L F].
  assert (Z : calibrating calib = false -> fits = map snd fitted /\ cfit = None /\ ms = map fst fitted /\ g' = g).
  { intros HC. unfold calibrating in HC. apply andb_false_iff in HC. destruct calib as [[|b0 l]|]; cbn [option_map List.length] in E; try (injection E as <- <- <- <-; auto; fail).
    destruct HC as [HC|HC]; [|discriminate]. unfold WholeModel.calibrate in E. rewrite HC in E. cbn [negb bind] in E. injection E as <- <- <- <-. auto. }
  assert (EP : fits = map snd fitted -> forall j m r, nth_error fitted j = Some (m, r) -> epochs j = length (fst r)).
  { intros -> j m r N. unfold epochs. f_equal. f_equal. rewrite (nth_error_nth _ _ _ (map_nth_error snd _ _ N)). reflexivity. }
  destruct (calibrating calib) eqn:HC.
  2:{ destruct (Z eq_refl) as (-> & -> & -> & ->). rewrite !map_length. split; [exact L|]. split; [exact L|].
      split; [|split; [reflexivity|split; [now rewrite app_nil_r|]]]; intros j J; destruct (F j J) as (m & r & N & F1 & F2 & F3 & F4 & F5 & F6).
      - rewrite (EP eq_refl j m r N). auto.
      - exists m. rewrite (map_nth_error fst _ _ N). rewrite (EP eq_refl j m r N). unfold final_calib. rewrite HC. auto. }
  clear Z. unfold calibrating in HC. apply andb_true_iff in HC. destruct HC as [HC HL]. destruct calib as [[|b0 l]|]; try discriminate. cbn [option_map List.length] in E.
  set (cal := b0 :: l) in *.
  destruct (calibrate q cal val g (map fst fitted)) as [[[cs ms'] g2]|e] eqn:R; cbn [bind] in E; [|discriminate]. injection E as <- <- <- <-.
  specialize (EP eq_refl).
  destruct fitted as [|[d rd] rest] eqn:FD.
  { unfold WholeModel.calibrate in R. rewrite HC in R. discriminate. }
  cbn [map fst] in R.
  assert (S1 : (1 <= members_of q)%nat) by (rewrite <- L; cbn; lia).
  destruct (F 0%nat) as (d' & rd' & N0 & _ & _ & _ & _ & D5 & D6); [lia|]. cbn in N0. injection N0 as <- <-.
  apply calibrate_spec in R; auto. destruct R as (cms & cmvs & c & cm & -> & R1 & R2 & R3 & R4 & R5 & R6). subst cepochs. cbn [fst].
  rewrite R5, R6. change (d :: map fst rest) with (map fst ((d, rd) :: rest)). rewrite !map_length.
  split; [exact L|]. split; [exact L|]. split.
  { intros j J. destruct (F j J) as (m & r & N & F1 & F2 & _). rewrite (EP j m r N). auto. }
  split; [split; [discriminate|auto]|]. split; [reflexivity|].
  intros j J. destruct (F j J) as (m & r & N & F1 & F2 & F3 & F4 & F5 & F6).
  exists {| mb_params := mb_params m; mb_mutable := mb_mutable m; mb_calib := c; mb_calib_mutable := cm |}.
  split; [rewrite (map_nth_error _ _ _ (map_nth_error fst _ _ N)); reflexivity|].
  rewrite (EP j m r N). cbn [mb_params mb_mutable mb_calib]. split; [exact F3|]. split; [exact F4|]. split; [|exact R4].
  unfold final_calib, calibrating. rewrite HC. cbn [andb cal]. rewrite R3. unfold calibrated. rewrite D5. f_equal. f_equal. f_equal.
  apply map_ext. intros b. f_equal. unfold ensemble. apply map_ext. intros i. rewrite <- app_assoc. cbn [app]. apply map_ext. intros x.
  rewrite draw_member_nth. set (jj := chosen q _). assert (J2 : (jj < members_of q)%nat) by (apply chosen_lt; auto).
  destruct (F jj J2) as (m2 & r2 & N2 & _ & _ & G3 & G4 & _). change (d :: map fst rest) with (map fst ((d, rd) :: rest)).
  rewrite (nth_error_nth _ _ d (map_nth_error fst _ _ N2)). cbn [fst]. unfold raw_at. rewrite (EP jj m2 r2 N2). rewrite G3, G4.
  destruct (trained train jj _ _) as [[p o] mu]. reflexivity.
Qed.

Theorem session_predicted : forall q init train val calib g fits cfit ms g', (forall j, plain (init j)) -> (1 <= members_of q)%nat ->
  session_train q init train val calib g = Ok (fits, cfit, (ms, g')) ->
  let epochs := fun j => length (fst (nth j fits ([], []))) in
  let cepochs := match cfit with Some r => length (fst r) | None => 0%nat end in
  let out := fun k x => let y := raw_at train init epochs (chosen q k) x in if has_calibrator then cal_row (final_calib q train init epochs calib cepochs g (chosen q k)) None y else y in
  forall distribute devices n rng (loader : list (list X)), (1 <= n)%nat -> divisible distribute devices loader ->
  (exists rows, session_mean row has_calibrator cal_row choice label mean_of q distribute devices n rng (ms, g') loader = (Ok rows, generator_after label rng g')
     /\ Forall2 (fun r x => r == average n (fun i => mean_of (out (key_of label rng g' ++ [Cut (label n) i]) x)))%Q rows (concat loader))
  /\ (exists rows, session_variance row has_calibrator cal_row choice label mean_of var_of q distribute devices n rng (ms, g') loader = (Ok rows, generator_after label rng g')
     /\ Forall2 (fun r x => r == average n (fun i => var_of (out (key_of label rng g' ++ [Cut (label 2) 1; Cut (label n) i]) x))
          + spread n (fun i => mean_of (out (key_of label rng g' ++ [Cut (label 2) 0; Cut (label 2) 1; Cut (label n) i]) x)))%Q rows (concat loader)).
Proof.
  intros q init train val calib g fits cfit ms g' PL S1 E epochs cepochs out distribute devices n rng loader N D.
  apply session_trained in E; auto. destruct E as (_ & L & _ & _ & _ & E). fold epochs cepochs in E.
  destruct ms as [|d rest]; [cbn in L; lia|].
  assert (O : forall k x, calibrated_row P M X Y C CM row has_calibrator cal_row (draw_member q (d :: rest) d k) x = out k x).
  { intros k x. rewrite draw_member_nth. destruct (E (chosen q k)) as (m & Nm & E1 & E2 & E3 & E4); [now apply chosen_lt|].
    rewrite (nth_error_nth _ _ d Nm). unfold calibrated_row, out, raw_at. rewrite E1, E2, E3. destruct (trained _ _ _ _) as [[p o] mu]. cbn [fst snd].
    destruct has_calibrator; [|reflexivity]. destruct E4 as [-> | ->]; reflexivity. }
  unfold session_mean, session_variance, session_predict. cbn [fst snd]. split.
  - destruct (mean_rows label _ _ _ (draw_member q (d :: rest) d) (calibrated_row P M X Y C CM row has_calibrator cal_row) mean_of var_of distribute devices n rng g' loader N D) as [(rows & R1 & R2) _].
    exists rows. split; [exact R1|]. eapply Forall2_imp; [|exact R2]. intros r x H. cbv beta in H. rewrite H. unfold row_mean, draw.
    erewrite average_ext; [reflexivity|]. intros i. now rewrite O.
  - destruct (variance_rows label _ _ _ (draw_member q (d :: rest) d) (calibrated_row P M X Y C CM row has_calibrator cal_row) mean_of var_of distribute devices n rng g' loader N D) as (rows & R1 & R2).
    exists rows. split; [exact R1|]. eapply Forall2_imp; [|exact R2]. intros r x H. cbv beta in H. rewrite H. unfold row_mean, row_spread, draw.
    apply Qplus_comp; [erewrite average_ext; [reflexivity|]|erewrite spread_ext; [reflexivity|]]; intros i; rewrite O, <- ?app_assoc; reflexivity.
Qed.

Theorem session_both : forall q init train val calib g fits cfit ms g', (forall j, plain (init j)) ->
  session_train q init train val calib g = Ok (fits, cfit, (ms, g')) ->
  let epochs := fun j => length (fst (nth j fits ([], []))) in
  let cepochs := match cfit with Some r => length (fst r) | None => 0%nat end in
  let out := fun k x => let y := raw_at train init epochs (chosen q k) x in if has_calibrator then cal_row (final_calib q train init epochs calib cepochs g (chosen q k)) None y else y in
  (length fits = members_of q /\ length ms = members_of q
  /\ (forall j, (j < members_of q)%nat -> (epochs j <= n_epochs cfg)%nat /\ (is_active (stop_config cfg) = false -> epochs j = n_epochs cfg))
  /\ (if calibrating calib then cfit <> None /\ (cepochs <= c_epochs ccfg)%nat /\ (is_active (c_stop ccfg) = false -> cepochs = c_epochs ccfg) else cfit = None)
  /\ g' = g ++ repeat (Cut (label 2) 0) (if calibrating calib then match val with Some _ => 3 | None => 2 end else 0)
  /\ (forall j, (j < members_of q)%nat -> exists m, nth_error ms j = Some m
       /\ mb_params m = fst (fst (trained train j (init j) (epochs j))) /\ mb_mutable m = snd (trained train j (init j) (epochs j))
       /\ mb_calib m = final_calib q train init epochs calib cepochs g j /\ plain m))
  /\ forall distribute devices n rng (loader : list (list X)), (1 <= members_of q)%nat -> (1 <= n)%nat -> divisible distribute devices loader ->
  (exists rows, session_mean row has_calibrator cal_row choice label mean_of q distribute devices n rng (ms, g') loader = (Ok rows, generator_after label rng g')
     /\ Forall2 (fun r x => r == average n (fun i => mean_of (out (key_of label rng g' ++ [Cut (label n) i]) x)))%Q rows (concat loader))
  /\ (exists rows, session_variance row has_calibrator cal_row choice label mean_of var_of q distribute devices n rng (ms, g') loader = (Ok rows, generator_after label rng g')
     /\ Forall2 (fun r x => r == average n (fun i => var_of (out (key_of label rng g' ++ [Cut (label 2) 1; Cut (label n) i]) x))
          + spread n (fun i => mean_of (out (key_of label rng g' ++ [Cut (label 2) 0; Cut (label 2) 1; Cut (label n) i]) x)))%Q rows (concat loader)).
Proof.
  intros q init train val calib g fits cfit ms g' PL E epochs cepochs out. split.
  - exact (session_trained q init train val calib g fits cfit ms g' PL E).
  - intros distribute devices n rng loader S1 N D. exact (session_predicted q init train val calib g fits cfit ms g' PL S1 E distribute devices n rng loader N D).
Qed.

Theorem session_succeeds : forall q init train val calib g, (forall j, plain (init j)) ->
  train <> [] -> (forall v, val = Some v -> v <> []) -> (is_active (stop_config cfg) = true -> forall r, monitor r <> None) -> (is_active (c_stop ccfg) = true -> forall r, cmonitor r <> None) ->
  ((1 <= members_of q)%nat \/ calibrating calib = false -> exists r, session_train q init train val calib g = Ok r)
  /\ (members_of q = 0%nat -> calibrating calib = true -> session_train q init train val calib g = Err IndexError).
Proof.
  intros q init train val calib g PL T0 V0 M0 M1.
  assert (F : exists fitted, fit_posterior q init train val = Ok fitted).
  { unfold WholeModel.fit_posterior. induction (seq 0 (members_of q)) as [|j l [r IH]]; [eexists; reflexivity|]. cbn [mapM]. rewrite IH.
    assert (Fj : exists y, fit_member q train val j (init j) = Ok y).
    { unfold WholeModel.fit_member.
      match goal with |- context [bind ?f _] => assert (FT : exists r, f = Ok r) end.
      { apply (fit_total P M (list X) T (list Y) K G OS Pr Un predict (fold_in j) diff gadd gdiv zeros_like clip_by opt (fun _ => True)); auto.
        - intros p b m key _. eexists. split; [apply map_training|exact I].
        - destruct train as [|b0 tl]; [easy|]. destruct q; cbn [run_of run_kwargs fst]; destruct (h_accumulation h) as [a|] eqn:EA; cbn [or_zero List.length]; try lia; specialize (Hacc a eq_refl); lia. }
      destruct FT as [[[s a] v] ->]. eexists. reflexivity. }
    destruct Fj as [y ->]. cbn [bind]. eexists. reflexivity. }
  destruct F as [fitted F]. pose proof F as F'. apply fit_posterior_spec in F'; auto. destruct F' as [L Fs].
  unfold WholeModel.session_train, pm_train. rewrite F. cbn [bind].
  unfold calibrating. destruct calib as [[|b0 l]|]; cbn [option_map List.length].
  - split; intros; [eexists; reflexivity|]. rewrite andb_false_r in H0. discriminate.
  - split.
    + intros W. destruct has_calibrator eqn:HC.
      2:{ unfold WholeModel.calibrate. cbn. eexists. reflexivity. }
      destruct W as [W|W]; [|discriminate W]. destruct fitted as [|[d rd] rest]; [cbn in L; lia|]. cbn [map fst].
      destruct (Fs 0%nat) as (d' & rd' & N0 & _ & _ & _ & _ & _ & D6); [lia|]. cbn in N0. injection N0 as <- <-.
      unfold WholeModel.calibrate. cbn [negb]. rewrite outputs_loader_rows. cbn [bind generator_after].
      match goal with |- context [cal_run C (option (cmut CM)) _ _ _ _ _ _ _ _ _ _ _ _ _ (pm_setting ?c _ _ _ _ ?a ?b _ _) _ _ ?da ?ou] =>
        assert (R : forall vouts, (forall vb vo, vouts = Some (vb, vo) -> vb <> [] /\ vo <> []) -> exists r, cal_run C (option (cmut CM)) (list X * list T) (list (list Y)) (list Y) (list T) CG COS CPr CUn cpredict cuncertainty snd cdiff copt
          (pm_setting c log_prob log_mean_exp mean_outputs mean_mutable a b cmetrics ctraining_metrics) cmonitor ccfg da ou vouts
          {| params := mb_calib d; opt_state := copt_init (mb_calib d); step := 0; mutable := mb_calib_mutable d; acc := None |} = Ok r)
      end.
      { intros vouts VO. apply (proj2 (calibrations_succeed C unit (list X) CM (list Y) T CG COS CPr CUn cpredict cuncertainty cdiff copt cmonitor ccfg M1)); auto; discriminate. }
      destruct val as [v|].
      * rewrite outputs_loader_rows. cbn [bind rmap generator_after].
        match goal with |- context [cal_run _ _ _ _ _ _ _ _ _ _ _ _ _ _ _ _ _ _ _ _ ?vo _] => destruct (R vo) as [[[s a] b] ->] end.
        { intros vb vo Ev. injection Ev as <- <-. specialize (V0 v eq_refl). split; [auto|]. destruct v; [easy|discriminate]. }
        eexists. reflexivity.
      * cbn [bind]. destruct (R None) as [[[s a] b] ->]; [discriminate|]. eexists. reflexivity.
    + intros Z HC. apply andb_true_iff in HC. destruct HC as [HC _]. rewrite Z in L. destruct fitted; [|discriminate L]. unfold WholeModel.calibrate. rewrite HC. reflexivity.
  - split; intros; [eexists; reflexivity|]. rewrite andb_false_r in H0. discriminate.
Qed.
End Session.
