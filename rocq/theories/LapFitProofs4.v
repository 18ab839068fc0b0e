(** Whole fits of Laplace posteriors (LapFitModel.v): tuning, predictions, success, frozen parameters. *)
From Coq Require Import List Arith ZArith QArith Bool String Reals Lia Lra.
From Verif Require Import Lib QuantModel TempModel TempSpec PredModel PredSpec LikModel LikProofs2 CalibModel TrainModel TrainSpec TrainProofs4 DescModel DescSpec DescProofs2 DescProofs3 DescProofs4 CalRunModel CalRunProofs2 DrawModel DrawSpec DrawProofs DrawProofs2 WholeModel WholeProofs WholeProofs2 LapModel LapSpec LapProofs2 TuneModel TuneSpec TuneProofs TuneProofs2 LapFitModel LapFitSpec LapFitProofs LapFitProofs2 LapFitProofs3.
Import ListNotations.
Open Scope list_scope.
Local Notation length := List.length.
Local Notation concat := List.concat.
Local Notation P := (list R).
Local Notation Y := (list R).

Lemma ranked l j : (j < n_paired l)%nat -> exists c m hc, nth_error l c = Some (Paired m hc) /\ rank l c = j.
Proof.
  revert j. unfold n_paired. induction l as [|sl l IH]; intros j J; [cbn in J; lia|].
  cbn [length] in J. rewrite rank_S in J. destruct sl as [x|x hx].
  - destruct (IH j J) as (c & m & hc & A & B). exists (S c), m, hc. split; [exact A|]. rewrite rank_S. exact B.
  - destruct j as [|j]; [exists 0%nat, x, hx; split; reflexivity|]. cbn [Nat.add] in J. destruct (IH j) as (c & m & hc & A & B); [lia|]. exists (S c), m, hc. split; [exact A|]. rewrite rank_S. cbn [Nat.add]. now rewrite B.
Qed.
Lemma definite_slots l v : definite v (paired_hess l) <-> forall c m hc, nth_error l c = Some (Paired m hc) -> (0 < exp (- entry v (rank l c)) + hc)%R.
Proof.
  destruct (paired_length l) as (L1 & _). split.
  - intros D c m hc N. rewrite <- (proj2 (paired_nth _ _ _ _ N)). apply D. rewrite L1. exact (rank_lt _ _ _ _ N).
  - intros D j J. rewrite L1 in J. destruct (ranked l j J) as (c & m & hc & A & ER). subst j. rewrite (proj2 (paired_nth _ _ _ _ A)). exact (D c m hc A).
Qed.
Lemma n_paired_le l : (n_paired l <= length l)%nat.
Proof. unfold n_paired. induction l as [|sl l IH]; [cbn; lia|]. cbn [length]. rewrite rank_S. destruct sl; lia. Qed.
Lemma n_paired_lt l c x : nth_error l c = Some (Plain x) -> (n_paired l < length l)%nat.
Proof.
  revert c. unfold n_paired. induction l as [|sl l IH]; intros c N; [destruct c; discriminate|]. cbn [length]. rewrite rank_S. destruct c as [|c].
  - injection N as ->. pose proof (n_paired_le l). unfold n_paired in *. lia.
  - specialize (IH c N). destruct sl; lia.
Qed.

Section LapFit.
Context {M X T K G OS Pr Un C CM : Type}.
Context (row : P -> option M -> X -> Y) (net_train : P -> option K -> option M -> list X -> list Y * M) (net_mutable : P -> option M -> list X -> M)
  (has_calibrator : bool) (cal_row : C -> option CM -> Y -> Y) (cal_train : C -> option CM -> list Y -> list Y * CM) (cal_mutable : C -> option CM -> list Y -> CM)
  (predict : list Y -> Pr) (fold_in : nat -> nat -> K) (diff : (P -> Q) -> P -> G) (gadd : G -> G -> G) (gdiv : G -> nat -> G) (zeros_like : G -> G) (clip_by : Q -> G -> G)
  (opt : G -> OS -> P -> P * OS) (opt_init : P -> OS)
  (metrics : option (list (Pr -> option Un -> list T -> Q))) (training_metrics : bool) (h : hyper) (monitor : list Q -> option Q) (cfg : config)
  (fl : R -> Q) (prior : log_var) (log_density : Y -> T -> R) (jac : (P -> Y) -> P -> nat -> nat -> R) (hessian : (Y -> R) -> Y -> nat -> nat -> R)
  (eigh : nat -> (nat -> nat -> R) -> (nat -> R) * (nat -> nat -> R)) (label : nat -> nat) (noise : key -> nat -> R).
Notation mbr := (WholeModel.member P M C CM) (only parsing).
Notation lstate := (lap_state M C CM).
Notation fit_with pr := (laplace_fit row net_train net_mutable has_calibrator cal_row cal_train cal_mutable predict fold_in diff gadd gdiv zeros_like clip_by opt opt_init metrics training_metrics h monitor cfg
  fl pr log_density jac hessian eigh label noise).
Notation fit := (fit_with prior).
Notation prelim := (preliminary M X T K G OS Pr Un C CM row net_train net_mutable has_calibrator cal_row cal_train cal_mutable predict fold_in diff gadd gdiv zeros_like clip_by opt opt_init metrics training_metrics h monitor cfg
  fl prior log_density).
Notation curv := (curvature M X T C CM row has_calibrator cal_row log_density jac hessian eigh).
Notation app_row := (apply_row M X C CM row has_calibrator cal_row).
Notation parts pr := (fit_parts row net_train net_mutable has_calibrator cal_row cal_train cal_mutable predict fold_in diff gadd gdiv zeros_like clip_by opt opt_init metrics training_metrics h monitor cfg fl pr log_density jac hessian eigh label noise).

(** a concave likelihood has nonnegative curvature *)
Theorem fit_nonnegative : forall which dump dir restore sfc current mapc train val tuning zero devices d s status r,
  fit which dump dir restore sfc current mapc train val tuning zero devices d = Ok (s, status, r) -> selects which (length (ls_slots s)) ->
  let p := map (fun sl => match sl with Plain x | Paired x _ => x end) (ls_slots s) in
  let out := outputs_at row has_calibrator cal_row (ls_mutable s) (ls_calib s) (ls_calib_mutable s) in
  let H := fun xt : X * T => hessian (fun o => log_density o (snd xt)) (out p (fst xt)) in
  (forall xt, In xt (concat (map (fun b => combine (fst b) (snd b)) train)) -> let n := length (out p (fst xt)) in
     eigen_decomposition n (H xt) (fst (eigh n (H xt))) (snd (eigh n (H xt))) /\ forall v, (quad n (H xt) v <= 0)%R) ->
  forall c x hess, nth_error (ls_slots s) c = Some (Paired x hess) -> (0 <= hess)%R.
Proof.
  intros which dump dir restore sfc current mapc train val tuning zero devices d s status r E S p out0 H HE c x hess N.
  destruct (parts prior _ _ _ _ _ _ _ _ _ _ _ _ _ _ _ _ E) as (m & _ & _ & PS & E1 & E2 & E3 & _).
  assert (LP : length (ls_slots s) = length (mb_params m)).
  { clear - PS. pose proof (curvature_length row has_calibrator cal_row log_density jac hessian eigh m which train) as L. destruct which as [[|c w]|]; cbn [pair_slots] in PS; [discriminate| |].
    - injection PS as <-. change (fold_left _ _ _) with (place (fun ch : nat * R => Paired (nth (fst ch) (mb_params m) 0%R) (snd ch)) (c :: w) (curv m (Some (c :: w)) train) (map Plain (mb_params m))). now rewrite place_length, map_length.
    - injection PS as <-. rewrite map_length, combine_length, L. cbn [rav]. apply Nat.min_id. }
  rewrite LP in S. pose proof (curvature_length row has_calibrator cal_row log_density jac hessian eigh m which train) as CL.
  pose proof (slot_means _ _ _ _ PS CL S) as SM. destruct (pair_slots_ok _ _ _ _ PS CL S) as (_ & B & D0).
  assert (C0 : (c < length (mb_params m))%nat) by (rewrite <- LP; apply nth_error_Some; rewrite N; discriminate).
  assert (T0 : trainable which c).
  { destruct which as [w|]; [|exact I]. cbn. destruct (in_dec Nat.eq_dec c w) as [I0|I0]; [exact I0|]. rewrite (D0 c C0 I0) in N. discriminate. }
  destruct (trainable_coordinate which _ c (pair_slots_some _ _ _ _ PS) T0 S C0) as (i & I0 & IL). specialize (IL _ eq_refl).
  rewrite (B i c I0 C0) in N. injection N as <- <-.
  assert (PE : p = mb_params m) by exact SM. assert (OE : out0 = app_row m) by (unfold out0; rewrite E1, E2, E3; reflexivity).
  unfold curvature. set (f := ggn_loader _ _). rewrite (nth_indep _ 0%R (f 0%nat)) by now rewrite map_length, seq_length. rewrite (map_nth f), seq_nth by exact IL. cbn [Nat.add]. unfold f.
  rewrite ggn_batching. change (map (rows_of X T) train) with (map (fun b : list X * list T => combine (fst b) (snd b)) train).
  unfold H in HE. rewrite OE, PE in HE. clear - HE. induction (concat _) as [|xt l IH]; [cbn; lra|]. cbn [map]. unfold rtotal in *. cbn [fold_right].
  assert (A : (0 <= curvature_point M X T C CM row has_calibrator cal_row log_density jac hessian eigh m which xt i)%R).
  { destruct (HE xt (or_introl eq_refl)) as (A & B). cbv zeta in A, B. unfold curvature_point. destruct (eigh _ _) as [lam z]. cbn [fst snd] in A. exact (ggn_nonneg _ _ _ _ _ _ A B). }
  assert (IH' := IH (fun xt' I' => HE xt' (or_intror I'))). lra.
Qed.

Lemma lap_draw_value (s : lstate) given k : let v := match given with Some v => v | None => ls_log_var s end in
  fits v (n_paired (ls_slots s)) ->
  (definite v (paired_hess (ls_slots s)) -> lap_draw noise s given k = Ok (Some (lap_member M C CM s (fill (ls_slots s) (TuneSpec.member (paired_means (ls_slots s)) (paired_hess (ls_slots s)) v (noise k))))))
  /\ (~ definite v (paired_hess (ls_slots s)) -> lap_draw noise s given k = Ok None).
Proof.
  intros v F. destruct (paired_length (ls_slots s)) as (L1 & L2).
  assert (FI : fits v (length (paired_hess (ls_slots s)))) by now rewrite L1.
  assert (LL : length (paired_means (ls_slots s)) = length (paired_hess (ls_slots s))) by congruence.
  destruct (draw_value noise (paired_means (ls_slots s)) (paired_hess (ls_slots s)) (ls_log_var s) given k LL FI) as (A & B). fold v in A, B.
  unfold lap_draw. split; intros D; [rewrite (A D)|rewrite (B D)]; reflexivity.
Qed.

(** tuning *)
Theorem fit_tunes : forall which dump dir restore sfc current mapc train v tuning zero p0 s status r,
  fit_with (Scalar p0) which dump dir restore sfc current mapc train (Some v) tuning zero None 1%nat = Ok (s, status, r) -> tuning = true ->
  let data := concat (map (fun b : list X * list T => combine (fst b) (snd b)) v) in data <> [] ->
  let out := outputs_at row has_calibrator cal_row (ls_mutable s) (ls_calib s) (ls_calib_mutable s) in
  let good := fun w => forall c x hc, nth_error (ls_slots s) c = Some (Paired x hc) -> (0 < exp (- w) + hc)%R in
  good (-3)%R ->
  forall draws : R -> nat -> mbr, (forall w i, good w -> lap_draw noise s (Some (Scalar w)) (tuning_key label zero 5 i) = Ok (Some (draws w i))) ->
  let goal := fun w => rtotal (map (fun xt => ln (raverage 5 (fun i => exp (log_density (out (mb_params (draws w i)) (fst xt)) (snd xt))))) data) in
  r = Ok tt /\ exists w, ls_log_var s = Scalar w /\ good w /\ (w = p0 \/ exists i, (i < 20)%nat /\ w = (-3 + INR i * (6 / 19))%R)
    /\ (good p0 -> (goal p0 <= goal w)%R) /\ forall i, (i < 20)%nat -> good (-3 + INR i * (6 / 19))%R -> (goal (-3 + INR i * (6 / 19)) <= goal w)%R.
Proof.
  intros which dump dir restore sfc current mapc train v tuning zero p0 s status r E TU data DN out0 good G3 draws HD goal.
  destruct (parts (Scalar p0) _ _ _ _ _ _ _ _ _ _ _ _ _ _ _ _ E) as (m & _ & _ & PS & E1 & E2 & E3 & EF). subst tuning.
  assert (OE : out0 = app_row m) by (unfold out0; rewrite E1, E2, E3; reflexivity).
  destruct (paired_length (ls_slots s)) as (L1 & L2).
  assert (GD : forall w, good w <-> definite (Scalar w) (paired_hess (ls_slots s))) by (intros w; symmetry; apply definite_slots).
  set (ll := fun vs (xt : X * T) => log_density (app_row m (fill (ls_slots s) vs) (fst xt)) (snd xt)) in *.
  cbn [option_map] in EF. unfold fit_end in EF.
  assert (DN' : concat (map (rows_of X T) v) <> []) by exact DN.
  pose proof (tuning_chooses _ label noise ll (paired_means (ls_slots s)) (paired_hess (ls_slots s)) zero p0 (map (rows_of X T) v) 5 (-3)%R 3%R 20 ltac:(congruence) ltac:(lia) DN' (proj1 (GD _) G3)) as TC.
  cbv zeta in TC. destruct TC as (w & before & after & A & B & DW & D1 & D2). rewrite A in EF. injection EF as EV ER. subst r. split; [reflexivity|].
  assert (GV : forall w, good w -> goal w = objective ll (fun i => TuneSpec.member (paired_means (ls_slots s)) (paired_hess (ls_slots s)) (Scalar w) (noise (tuning_key label zero 5 i))) 5 (concat (map (rows_of X T) v))).
  { intros w' GW. unfold goal, objective. f_equal. apply map_ext. intros xt. f_equal. unfold raverage. f_equal. unfold rover. f_equal. apply map_ext. intros i.
    f_equal. unfold ll. rewrite OE. pose proof (HD w' i GW) as HDi.
    rewrite (proj1 (lap_draw_value s (Some (Scalar w')) (tuning_key label zero 5 i) I) (proj1 (GD w') GW)) in HDi. injection HDi as <-. reflexivity. }
  assert (GE : forall i, grid_point (-3) 3 20 i = (-3 + INR i * (6 / 19))%R).
  { intros i. unfold grid_point. replace (INR (20 - 1)) with 19%R by (cbn; lra). lra. }
  exists w. split; [exact EV|]. split; [now apply GD|].
  assert (BEST : forall w', In w' (map (grid_point (-3) 3 20) (seq 0 20) ++ [p0]) -> good w' -> (goal w' <= goal w)%R).
  { intros w' IW GW. rewrite (GV w' GW), (GV w (proj2 (GD w) DW)). rewrite B in IW. apply in_app_iff in IW. destruct IW as [IW|[<-|IW]].
    - apply Rlt_le. apply (D1 w' IW). now apply GD.
    - apply Rle_refl.
    - apply (D2 w' IW). now apply GD. }
  split; [|split].
  - assert (IW : In w (map (grid_point (-3) 3 20) (seq 0 20) ++ [p0])) by (rewrite B; apply in_or_app; right; now left).
    apply in_app_iff in IW. destruct IW as [IW|[<-|[]]]; [right|now left]. apply in_map_iff in IW. destruct IW as (i & <- & Hi). apply in_seq in Hi. exists i. split; [lia|apply GE].
  - intros GP. apply BEST; [apply in_or_app; right; now left|exact GP].
  - intros i Hi GI. apply BEST; [|exact GI]. apply in_or_app. left. rewrite <- GE. apply in_map. apply in_seq. lia.
Qed.

(** predictions *)
Theorem lap_predictions : forall (mean_of var_of : Y -> Q) (s : lstate) (draws : key -> mbr) distribute devices n rng g (loader : list (list X)),
  (forall k, lap_draw noise s None k = Ok (Some (draws k))) -> (1 <= n)%nat -> divisible distribute devices loader ->
  let out := fun k x => outputs_at row has_calibrator cal_row (ls_mutable s) (ls_calib s) (ls_calib_mutable s) (mb_params (draws k)) x in
  (exists rows, lap_mean row has_calibrator cal_row label noise mean_of distribute devices n rng s g loader = (Ok rows, generator_after label rng g)
     /\ Forall2 (fun r x => r == average n (fun i => mean_of (out (key_of label rng g ++ [Cut (label n) i]) x)))%Q rows (concat loader))
  /\ (exists rows, lap_variance row has_calibrator cal_row label noise mean_of var_of distribute devices n rng s g loader = (Ok rows, generator_after label rng g)
     /\ Forall2 (fun r x => r == average n (fun i => var_of (out (key_of label rng g ++ [Cut (label 2) 1%nat; Cut (label n) i]) x))
          + spread n (fun i => mean_of (out (key_of label rng g ++ [Cut (label 2) 0%nat; Cut (label 2) 1%nat; Cut (label n) i]) x)))%Q rows (concat loader)).
Proof.
  intros mean_of var_of s draws distribute devices n rng g loader HD N DI out0.
  assert (CS : exists std, compute_std (paired_hess (ls_slots s)) (ls_log_var s) = Ok std).
  { specialize (HD []). unfold lap_draw, TuneModel.draw in HD. destruct (compute_std _ _) as [std|]; [now exists std|discriminate]. }
  destruct CS as [std CS].
  assert (DM : forall k, mb_mutable (draws k) = ls_mutable s /\ mb_calib (draws k) = ls_calib s /\ mb_calib_mutable (draws k) = ls_calib_mutable s).
  { intros k. specialize (HD k). unfold lap_draw in HD. destruct (TuneModel.draw _ _ _ _ _ _) as [[vs|]|]; cbn in HD; try discriminate. injection HD as <-. auto. }
  assert (OE : forall k x, calibrated_row P M X Y C CM row has_calibrator cal_row (draws k) x = out0 k x).
  { intros k x. destruct (DM k) as (A & B & D). unfold out0, outputs_at, calibrated_row. now rewrite A, B, D. }
  set (post := fun k => match lap_draw noise s None k with Ok (Some m) => m | _ => lap_member M C CM s (map slot_mean (ls_slots s)) end).
  assert (PE : forall k, post k = draws k) by (intros k; unfold post; now rewrite HD).
  split.
  - destruct (mean_rows label mbr X Y post (calibrated_row P M X Y C CM row has_calibrator cal_row) mean_of var_of distribute devices n rng g loader N DI) as ((rows & A & B) & _).
    exists rows. unfold lap_mean, lap_predict. rewrite CS. fold post. split; [exact A|]. eapply Forall2_imp; [|exact B]. intros r x E. cbv beta in E. rewrite E. unfold row_mean. rewrite (average_ext n _ (fun i => mean_of (out0 (key_of label rng g ++ [Cut (label n) i]) x))); [reflexivity|].
    intros i. unfold DrawSpec.draw. now rewrite PE, OE.
  - destruct (variance_rows label mbr X Y post (calibrated_row P M X Y C CM row has_calibrator cal_row) mean_of var_of distribute devices n rng g loader N DI) as (rows & A & B).
    exists rows. unfold lap_variance, lap_predict. rewrite CS. fold post. split; [exact A|]. eapply Forall2_imp; [|exact B]. intros r x E. cbv beta in E. rewrite E. unfold row_mean, row_spread.
    rewrite (average_ext n _ (fun i => var_of (out0 (key_of label rng g ++ [Cut (label 2) 1%nat; Cut (label n) i]) x))).
    2:{ intros i. unfold DrawSpec.draw. rewrite PE, OE, <- app_assoc. reflexivity. }
    rewrite (spread_ext n _ (fun i => mean_of (out0 (key_of label rng g ++ [Cut (label 2) 0%nat; Cut (label 2) 1%nat; Cut (label n) i]) x))); [reflexivity|].
    intros i. unfold DrawSpec.draw. rewrite PE, OE, <- app_assoc. reflexivity.
Qed.

(** success *)
Hypothesis Hdiff : forall f g p, (forall q, f q = g q) -> diff f p = diff g p.
Hypothesis Hacc : forall a, h_accumulation h = Some a -> (a <= 1)%nat.
Theorem fit_succeeds : forall which (dump dir : bool) current init train val tuning zero devices d,
  (dump = true -> dir = true) -> mb_calib_mutable init = None \/ mb_calib_mutable init = Some None -> train <> [] -> (forall v, val = Some v -> v <> []) ->
  (is_active (stop_config cfg) = true -> forall r, monitor r <> None) ->
  let run := fit which dump dir None false current (Some init) train val tuning zero devices d in
  (which <> Some [] -> exists s reports r, run = Ok (s, Some reports, r)) /\ (which = Some [] -> run = Err TypeError).
Proof.
  intros which dump dir current init train val tuning zero devices d DD PL T0 V0 M0 run.
  assert (F : exists y, prelim init train val = Ok y).
  { unfold preliminary, WholeModel.fit_member.
    match goal with |- context [bind ?f _] => assert (FT : exists r, f = Ok r) end.
    { apply (fit_total P M (list X) T (list Y) K G OS Pr Un predict (fold_in 0%nat) diff gadd gdiv zeros_like clip_by opt (fun _ => True)); auto.
      - intros p b m key _. eexists. split; [apply map_training|exact I].
      - destruct train as [|b0 tl]; [easy|]. cbn [run_of run_kwargs fst]; destruct (h_accumulation h) as [a|] eqn:EA; cbn [or_zero List.length]; try lia; specialize (Hacc a eq_refl); lia. }
    destruct FT as [[[s a] v] ->]. eexists. reflexivity. }
  destruct F as [[m reports] F].
  assert (CF : check_fit_config dump dir = Ok tt) by (destruct dump, dir; try reflexivity; now discriminate DD).
  assert (RE : run = bind (pair_slots which (mb_params m) (curv m which train)) (fun slots =>
      let '(v, r) := fit_end label noise (fun vs (xt : X * T) => log_density (app_row m (fill slots vs) (fst xt)) (snd xt)) (paired_means slots) (paired_hess slots) zero prior (option_map (map (rows_of X T)) val) tuning devices d in
      Ok ({| ls_slots := slots; ls_mutable := mb_mutable m; ls_calib := mb_calib m; ls_calib_mutable := mb_calib_mutable m; ls_log_var := v |}, Some reports, r))).
  { unfold run, laplace_fit, laplace_start, fit_start. rewrite CF. cbn [bind]. rewrite F. cbn [rmap bind fst snd]. destruct train; [now elim T0|reflexivity]. }
  rewrite RE. split.
  - intros W. assert (PS : exists slots, pair_slots which (mb_params m) (curv m which train) = Ok slots) by (destruct which as [[|c w]|]; [now elim W|eexists; reflexivity|eexists; reflexivity]).
    destruct PS as [slots ->]. cbn [bind]. destruct (fit_end _ _ _ _ _ _ _ _ _ _ _) as [v r]. eexists _, _, _. reflexivity.
  - intros ->. reflexivity.
Qed.

(** a diagonal prior with frozen parameters *)
Theorem frozen_diagonal : forall which dump dir restore sfc current mapc train val tuning zero devices d vs s status r,
  fit_with (Vector vs) which dump dir restore sfc current mapc train val tuning zero devices d = Ok (s, status, r) -> selects which (length (ls_slots s)) ->
  val = None \/ tuning = false -> length vs = length (ls_slots s) -> (exists c, (c < length (ls_slots s))%nat /\ ~ trainable which c) ->
  (forall k, lap_draw noise s None k = Err TypeError)
  /\ forall (mean_of var_of : Y -> Q) distribute devices n rng g (loader : list (list X)),
     lap_mean row has_calibrator cal_row label noise mean_of distribute devices n rng s g loader = (Err TypeError, generator_after label rng g)
     /\ lap_variance row has_calibrator cal_row label noise mean_of var_of distribute devices n rng s g loader = (Err TypeError, generator_after label rng g).
Proof.
  intros which dump dir restore sfc current mapc train val tuning zero devices d vs s status r E S NV LV (c & LC & NT).
  destruct (parts (Vector vs) _ _ _ _ _ _ _ _ _ _ _ _ _ _ _ _ E) as (m & _ & _ & PS & _ & _ & _ & EF).
  assert (LP : length (ls_slots s) = length (mb_params m)).
  { clear - PS. pose proof (curvature_length row has_calibrator cal_row log_density jac hessian eigh m which train) as L. destruct which as [[|c w]|]; cbn [pair_slots] in PS; [discriminate| |].
    - injection PS as <-. change (fold_left _ _ _) with (place (fun ch : nat * R => Paired (nth (fst ch) (mb_params m) 0%R) (snd ch)) (c :: w) (curv m (Some (c :: w)) train) (map Plain (mb_params m))). now rewrite place_length, map_length.
    - injection PS as <-. rewrite map_length, combine_length, L. cbn [rav]. apply Nat.min_id. }
  rewrite LP in S, LC. pose proof (curvature_length row has_calibrator cal_row log_density jac hessian eigh m which train) as CL.
  destruct (pair_slots_ok _ _ _ _ PS CL S) as (_ & B & D0). pose proof (n_paired_lt _ _ _ (D0 c LC NT)) as NL.
  destruct (paired_length (ls_slots s)) as (L1 & _).
  assert (PV : ls_log_var s = Vector vs).
  { unfold fit_end in EF. destruct val as [v|]; cbn [option_map] in EF; [|now injection EF]. destruct NV as [NV|NV]; [discriminate|subst tuning]. now injection EF. }
  assert (L2 : (2 <= length (ls_slots s))%nat).
  { rewrite LP. pose proof (pair_slots_some _ _ _ _ PS) as W. destruct which as [[|c0 w]|]; [now elim W| |now elim NT]. destruct S as (_ & S). inversion S as [|? ? S0]; subst.
    assert (c <> c0) by (intros ->; apply NT; now left). lia. }
  assert (CE : compute_std (paired_hess (ls_slots s)) (ls_log_var s) = Err TypeError).
  { rewrite PV. cbn [compute_std]. rewrite L1. destruct (Nat.eqb_spec (length vs) (n_paired (ls_slots s))); [lia|]. destruct vs as [|v0 [|v1 vs]]; cbn [length] in *; try reflexivity. lia. }
  split.
  - intros k. unfold lap_draw, TuneModel.draw. rewrite CE. reflexivity.
  - intros mean_of var_of distribute devices' n rng g loader. unfold lap_mean, lap_variance, lap_predict. rewrite CE. now rewrite the_rng_eq.
Qed.
End LapFit.
