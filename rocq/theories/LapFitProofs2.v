(** Whole fits of Laplace posteriors (LapFitModel.v): states and draws. *)
From Coq Require Import List Arith ZArith QArith Bool String Reals Lia Lra.
From Verif Require Import Lib QuantModel TempSpec PredSpec LikModel CalibModel TrainModel TrainSpec TrainProofs4 DescModel DescSpec CalRunModel DrawModel DrawSpec WholeModel WholeProofs WholeProofs2 LapModel LapSpec LapProofs2 TuneModel TuneSpec TuneProofs LapFitModel LapFitSpec LapFitProofs.
Import ListNotations.
Open Scope list_scope.
Local Notation length := List.length.
Local Notation concat := List.concat.
Local Notation P := (list R).
Local Notation Y := (list R).

Section LapFit.
Context {M X T K G OS Pr Un C CM : Type}.
Context (row : P -> option M -> X -> Y) (net_train : P -> option K -> option M -> list X -> list Y * M) (net_mutable : P -> option M -> list X -> M)
  (has_calibrator : bool) (cal_row : C -> option CM -> Y -> Y) (cal_train : C -> option CM -> list Y -> list Y * CM) (cal_mutable : C -> option CM -> list Y -> CM)
  (predict : list Y -> Pr) (fold_in : nat -> nat -> K) (diff : (P -> Q) -> P -> G) (gadd : G -> G -> G) (gdiv : G -> nat -> G) (zeros_like : G -> G) (clip_by : Q -> G -> G)
  (opt : G -> OS -> P -> P * OS) (opt_init : P -> OS)
  (metrics : option (list (Pr -> option Un -> list T -> Q))) (training_metrics : bool) (h : hyper) (monitor : list Q -> option Q) (cfg : config)
  (fl : R -> Q) (prior : log_var) (log_density : Y -> T -> R) (jac : (P -> Y) -> P -> nat -> nat -> R) (hessian : (Y -> R) -> Y -> nat -> nat -> R)
  (eigh : nat -> (nat -> nat -> R) -> (nat -> R) * (nat -> nat -> R)) (label : nat -> nat) (noise : key -> nat -> R).
Notation mbr := (WholeModel.member P M C CM) (only parsing).
Notation lstate := (lap_state M C CM).
Notation fit := (laplace_fit row net_train net_mutable has_calibrator cal_row cal_train cal_mutable predict fold_in diff gadd gdiv zeros_like clip_by opt opt_init metrics training_metrics h monitor cfg
  fl prior log_density jac hessian eigh label noise).
Notation prelim := (preliminary M X T K G OS Pr Un C CM row net_train net_mutable has_calibrator cal_row cal_train cal_mutable predict fold_in diff gadd gdiv zeros_like clip_by opt opt_init metrics training_metrics h monitor cfg
  fl prior log_density).
Notation curv := (curvature M X T C CM row has_calibrator cal_row log_density jac hessian eigh).
Notation app_row := (apply_row M X C CM row has_calibrator cal_row).

(** where a fit starts, and with which status *)
Definition origin (restore : option (result (stored M C CM))) (start_from_current : bool) (current : option (result (stored M C CM))) (map_config : option (WholeModel.member (list R) M C CM))
    (train : list (list X * list T)) (val : option (list (list X * list T))) (m : mbr) (status : option (list (list Q) * list (list Q))) : Prop :=
  match restore, start_from_current, map_config with
  | Some r, _, _ => status = None /\ exists s, r = Ok s /\ init_map_state M C CM s = Ok m
  | None, true, _ => status = None /\ exists s, current = Some (Ok s) /\ init_map_state M C CM s = Ok m
  | None, false, Some init => exists r, status = Some r /\ prelim init train val = Ok (m, r)
  | _, _, _ => False
  end.

Lemma curvature_length m which train : length (curv m which train) = length (rav which (mb_params m)).
Proof. unfold curvature. now rewrite map_length, seq_length. Qed.

Lemma fit_parts : forall which dump dir restore sfc current mapc train val tuning zero devices d s status r,
  fit which dump dir restore sfc current mapc train val tuning zero devices d = Ok (s, status, r) ->
  exists m, origin restore sfc current mapc train val m status /\ train <> [] /\ pair_slots which (mb_params m) (curv m which train) = Ok (ls_slots s)
    /\ ls_mutable s = mb_mutable m /\ ls_calib s = mb_calib m /\ ls_calib_mutable s = mb_calib_mutable m
    /\ (ls_log_var s, r) = fit_end label noise (fun vs (xt : X * T) => log_density (app_row m (fill (ls_slots s) vs) (fst xt)) (snd xt)) (paired_means (ls_slots s)) (paired_hess (ls_slots s)) zero prior
         (option_map (map (rows_of X T)) val) tuning devices d.
Proof.
  intros which dump dir restore sfc current mapc train val tuning zero devices d s status r E. unfold laplace_fit in E.
  destruct (laplace_start _ _ _ _ _ _ _) as [st|e] eqn:ES; cbn [bind] in E; [|discriminate].
  match type of E with bind ?a _ = _ => destruct a as [[m st']|e] eqn:EM end; cbn [bind] in E; [|discriminate].
  assert (O : origin restore sfc current mapc train val m st').
  { unfold origin. unfold laplace_start, fit_start in ES. destruct (check_fit_config dump dir) as [[]|]; cbn [bind] in ES; [|discriminate].
    destruct restore as [[r0|]|]; cbn [bind] in ES.
    - destruct (existsb _ _); cbn [bind] in ES; [|discriminate]. injection ES as <-. cbn [fst snd] in EM.
      destruct (init_map_state M C CM r0) as [m0|] eqn:EI; cbn [rmap bind] in EM; [|discriminate]. injection EM as <- <-. split; [reflexivity|]. exists r0. auto.
    - discriminate.
    - destruct sfc.
      + destruct current as [[c|]|]; cbn [bind] in ES; [|discriminate|discriminate]. destruct (existsb _ _); cbn [bind] in ES; [|discriminate]. injection ES as <-.
        destruct (init_map_state M C CM c) as [m0|] eqn:EI; cbn [rmap bind] in EM; [|discriminate]. injection EM as <- <-. split; [reflexivity|]. exists c. auto.
      + destruct mapc as [init|]; cbn [bind] in ES; [|discriminate]. injection ES as <-.
        destruct (prelim init train val) as [[m0 r0]|] eqn:EP; cbn [rmap bind] in EM; [|discriminate]. injection EM as <- <-. exists r0. auto. }
  exists m. destruct train as [|b train']; [discriminate|].
  destruct (pair_slots _ _ _) as [slots|e] eqn:EQ; cbn [bind] in E; [|discriminate].
  destruct (fit_end _ _ _ _ _ _ _ _ _ _ _) as [v r0] eqn:EF. injection E as <- <- <-. cbn [ls_slots ls_mutable ls_calib ls_calib_mutable ls_log_var].
  split; [exact O|]. split; [discriminate|]. split; [reflexivity|]. repeat (split; [reflexivity|]). now rewrite EF.
Qed.

(** the curvature of a coordinate *)
Lemma curvature_value : forall m which train i c, differentiates jac -> selects which (length (mb_params m)) -> is_coordinate which i c -> (c < length (mb_params m))%nat ->
  (i < length (rav which (mb_params m)))%nat ->
  let p := mb_params m in let data := concat (map (fun b => combine (fst b) (snd b)) train) in
  let H := fun xt : X * T => hessian (fun o => log_density o (snd xt)) (app_row m p (fst xt)) in
  forall D : X * T -> nat -> R, (forall xt, In xt data -> eigen_decomposition (length (app_row m p (fst xt))) (H xt) (fst (eigh (length (app_row m p (fst xt))) (H xt))) (snd (eigh (length (app_row m p (fst xt))) (H xt)))) ->
  (forall xt o, In xt data -> (o < length (app_row m p (fst xt)))%nat -> derivable_pt_lim (fun t => nth o (app_row m (bump p c t) (fst xt)) 0%R) 0 (D xt o)) ->
  nth i (curv m which train) 0%R = (- rtotal (map (fun xt => quad (length (app_row m p (fst xt))) (H xt) (D xt)) data))%R.
Proof.
  intros m which train i c J S I L IL p data H D HE HD. unfold curvature.
  set (f := ggn_loader _ _). rewrite (nth_indep _ 0%R (f 0%nat)) by now rewrite map_length, seq_length. rewrite (map_nth f), seq_nth by exact IL. cbn [Nat.add]. unfold f.
  rewrite ggn_batching. change (map (rows_of X T) train) with (map (fun b : list X * list T => combine (fst b) (snd b)) train). fold data.
  assert (E : forall l, (forall xt, In xt l -> In xt data) ->
     rtotal (map (fun xt => curvature_point M X T C CM row has_calibrator cal_row log_density jac hessian eigh m which xt i) l)
     = (- rtotal (map (fun xt => quad (length (app_row m p (fst xt))) (H xt) (D xt)) l))%R).
  { intros l Hl. induction l as [|xt l IH]; [cbn; lra|]. cbn [map]. unfold rtotal in *. cbn [fold_right]. rewrite IH by (intros y Hy; apply Hl; now right).
    assert (IN : In xt data) by (apply Hl; now left). rewrite Ropp_plus_distr. f_equal.
    unfold curvature_point. fold p. specialize (HE xt IN). fold (H xt). destruct (eigh _ (H xt)) as [lam z]. cbn [fst snd] in HE.
    rewrite (ggn_quadratic _ (H xt) lam z _ i HE). f_equal. unfold quad. apply rover_ext. intros o Ho. apply rover_ext. intros o' Ho'.
    assert (JE : forall o, (o < length (app_row m p (fst xt)))%nat -> jac (fun v => app_row m (params_from_rav which p v) (fst xt)) (rav which p) o i = D xt o).
    { intros q Hq. apply J; [exact IL|]. apply (deriv_ext (fun t => nth q (app_row m (bump p c t) (fst xt)) 0%R)); [|now apply HD].
      intros t. unfold p. now rewrite (moved_params which (mb_params m) i c t S I L). }
    now rewrite !JE. }
  apply E. auto.
Qed.

(** what a fit stores *)
Theorem fit_state : forall which dump dir restore sfc current mapc train val tuning zero devices d s status r,
  differentiates jac -> fit which dump dir restore sfc current mapc train val tuning zero devices d = Ok (s, status, r) -> selects which (length (ls_slots s)) ->
  exists m, origin restore sfc current mapc train val m status
    /\ let p := mb_params m in let data := concat (map (fun b => combine (fst b) (snd b)) train) in
       let H := fun xt : X * T => hessian (fun o => log_density o (snd xt)) (app_row m p (fst xt)) in
       length (ls_slots s) = length p
       /\ (forall c, (c < length p)%nat -> ~ trainable which c -> nth_error (ls_slots s) c = Some (Plain (nth c p 0%R)))
       /\ (forall c, (c < length p)%nat -> trainable which c -> exists hess, nth_error (ls_slots s) c = Some (Paired (nth c p 0%R) hess)
            /\ forall D : X * T -> nat -> R,
               (forall xt, In xt data -> let n := length (app_row m p (fst xt)) in eigen_decomposition n (H xt) (fst (eigh n (H xt))) (snd (eigh n (H xt)))) ->
               (forall xt o, In xt data -> (o < length (app_row m p (fst xt)))%nat -> derivable_pt_lim (fun t => nth o (app_row m (bump p c t) (fst xt)) 0%R) 0 (D xt o)) ->
               hess = (- rtotal (map (fun xt => quad (length (app_row m p (fst xt))) (H xt) (D xt)) data))%R)
       /\ ls_mutable s = mb_mutable m /\ ls_calib s = mb_calib m /\ ls_calib_mutable s = mb_calib_mutable m
       /\ (val = None \/ tuning = false -> ls_log_var s = prior /\ r = Ok tt).
Proof.
  intros which dump dir restore sfc current mapc train val tuning zero devices d s status r J E S.
  destruct (fit_parts _ _ _ _ _ _ _ _ _ _ _ _ _ _ _ _ E) as (m & O & NE & PS & E1 & E2 & E3 & EF). exists m. split; [exact O|]. cbv zeta.
  assert (LP : length (ls_slots s) = length (mb_params m)).
  { clear - PS. pose proof (curvature_length m which train) as L. destruct which as [[|c w]|]; cbn [pair_slots] in PS; [discriminate| |].
    - injection PS as <-. change (fold_left _ _ _) with (place (fun ch : nat * R => Paired (nth (fst ch) (mb_params m) 0%R) (snd ch)) (c :: w) (curv m (Some (c :: w)) train) (map Plain (mb_params m))). now rewrite place_length, map_length.
    - injection PS as <-. rewrite map_length, combine_length, L. cbn [rav]. apply Nat.min_id. }
  rewrite LP in S. destruct (pair_slots_ok _ _ _ _ PS (curvature_length m which train) S) as (_ & B & D0).
  split; [exact LP|]. split; [exact D0|]. split.
  - intros c L TR. destruct (trainable_coordinate which _ c (pair_slots_some _ _ _ _ PS) TR S L) as (i & I & IL).
    exists (nth i (curv m which train) 0%R). split; [now apply B|]. intros D HE HD. apply (curvature_value m which train i c J S I L (IL _ eq_refl) D HE HD).
  - repeat (split; [assumption|]). intros NV. unfold fit_end in EF. destruct val as [v|]; cbn [option_map] in EF; [|injection EF as <- <-; auto].
    destruct NV as [NV| ->]; [discriminate|]. injection EF as <- <-. auto.
Qed.

(** draws *)
Theorem fit_draws : forall (s : lstate) given k,
  let v := match given with Some v => v | None => ls_log_var s end in
  match v with Scalar _ => True | Vector vs => length vs = n_paired (ls_slots s) end ->
  (forall c m hc, nth_error (ls_slots s) c = Some (Paired m hc) -> (0 < exp (- entry v (rank (ls_slots s) c)) + hc)%R) ->
  exists m, lap_draw noise s given k = Ok (Some m) /\ mb_mutable m = ls_mutable s /\ mb_calib m = ls_calib s /\ mb_calib_mutable m = ls_calib_mutable s
    /\ length (mb_params m) = length (ls_slots s)
    /\ (forall c x, nth_error (ls_slots s) c = Some (Plain x) -> nth c (mb_params m) 0%R = x)
    /\ (forall c x hc, nth_error (ls_slots s) c = Some (Paired x hc) -> nth c (mb_params m) 0%R = (x + noise k (rank (ls_slots s) c) / sqrt (exp (- entry v (rank (ls_slots s) c)) + hc))%R).
Proof.
  intros s given k v F PD. destruct (paired_length (ls_slots s)) as (L1 & L2).
  assert (FI : fits v (length (paired_hess (ls_slots s)))) by (destruct v; cbn [fits]; [exact I|now rewrite L1]).
  assert (DF : definite v (paired_hess (ls_slots s))).
  { intros j J. rewrite L1 in J. clear - PD J.
    assert (E : exists c m hc, nth_error (ls_slots s) c = Some (Paired m hc) /\ rank (ls_slots s) c = j).
    { clear PD. revert j J. unfold n_paired. induction (ls_slots s) as [|sl l IH]; intros j J; [cbn in J; lia|].
      cbn [length] in J. rewrite rank_S in J. destruct sl as [x|x hx].
      - destruct (IH j J) as (c & m & hc & A & B). exists (S c), m, hc. split; [exact A|]. rewrite rank_S. exact B.
      - destruct j as [|j]; [exists 0%nat, x, hx; split; reflexivity|]. cbn [Nat.add] in J. destruct (IH j) as (c & m & hc & A & B); [lia|]. exists (S c), m, hc. split; [exact A|]. rewrite rank_S. cbn [Nat.add]. now rewrite B. }
    destruct E as (c & m & hc & A & ER). subst j. rewrite (proj2 (paired_nth _ _ _ _ A)). exact (PD c m hc A). }
  assert (LL : length (paired_means (ls_slots s)) = length (paired_hess (ls_slots s))) by congruence.
  pose proof (proj1 (draw_value noise (paired_means (ls_slots s)) (paired_hess (ls_slots s)) (ls_log_var s) given k LL FI) DF) as DV. fold v in DV.
  unfold lap_draw. rewrite DV. cbn [rmap bind option_map]. eexists. split; [reflexivity|]. cbn [lap_member mb_params mb_mutable mb_calib mb_calib_mutable]. repeat (split; [reflexivity|]).
  assert (LM : length (TuneSpec.member (paired_means (ls_slots s)) (paired_hess (ls_slots s)) v (noise k)) = n_paired (ls_slots s)) by (unfold TuneSpec.member; now rewrite map_length, seq_length).
  destruct (fill_spec (ls_slots s) _ LM) as (A & B & D). split; [exact A|]. split; [exact B|].
  intros c x hc E. rewrite (D c x hc E). destruct (paired_nth _ _ _ _ E) as (PM & PH). pose proof (rank_lt _ _ _ _ E) as RL.
  unfold TuneSpec.member. set (f := fun j => _). rewrite (nth_indep _ 0%R (f 0%nat)) by (rewrite map_length, seq_length; now rewrite L2). rewrite (map_nth f), seq_nth by now rewrite L2.
  cbn [Nat.add]. unfold f. now rewrite PM, PH.
Qed.

(** fitting again from the state of a fit *)
Theorem fit_again : forall which dump dir restore sfc current mapc train val tuning zero devices d s status r, 
  fit which dump dir restore sfc current mapc train val tuning zero devices d = Ok (s, status, r) -> selects which (length (ls_slots s)) ->
  forall dump' dir' mapc' val' tuning' zero' devices' d', check_fit_config dump' dir' = Ok tt ->
  let again := fun restore' sfc' current' => fit which dump' dir' restore' sfc' current' mapc' train val' tuning' zero' devices' d' in
  exists v r', again None true (Some (Ok (LapSt s))) = Ok ({| ls_slots := ls_slots s; ls_mutable := ls_mutable s; ls_calib := ls_calib s; ls_calib_mutable := ls_calib_mutable s; ls_log_var := v |}, None, r')
    /\ (forall sfc' current', again (Some (Ok (LapSt s))) sfc' current' = again None true (Some (Ok (LapSt s))))
    /\ (val' = None \/ tuning' = false -> v = prior /\ r' = Ok tt)
    /\ (val' = val -> tuning' = tuning -> zero' = zero -> devices' = devices -> d' = d -> v = ls_log_var s /\ r' = r).
Proof.
  intros which dump dir restore sfc current mapc train val tuning zero devices d s status r E S dump' dir' mapc' val' tuning' zero' devices' d' CF again.
  destruct (fit_parts _ _ _ _ _ _ _ _ _ _ _ _ _ _ _ _ E) as (m & O & NE & PS & E1 & E2 & E3 & EF).
  assert (LP : length (ls_slots s) = length (mb_params m)).
  { clear - PS. pose proof (curvature_length m which train) as L. destruct which as [[|c w]|]; cbn [pair_slots] in PS; [discriminate| |].
    - injection PS as <-. change (fold_left _ _ _) with (place (fun ch : nat * R => Paired (nth (fst ch) (mb_params m) 0%R) (snd ch)) (c :: w) (curv m (Some (c :: w)) train) (map Plain (mb_params m))). now rewrite place_length, map_length.
    - injection PS as <-. rewrite map_length, combine_length, L. cbn [rav]. apply Nat.min_id. }
  rewrite LP in S. pose proof (slot_means _ _ _ _ PS (curvature_length m which train) S) as SM.
  assert (MM : lap_member M C CM s (map slot_mean (ls_slots s)) = m).
  { unfold lap_member. rewrite SM, E1, E2, E3. now destruct m. }
  assert (R1 : again None true (Some (Ok (LapSt s))) = let '(v, r') := fit_end label noise (fun vs (xt : X * T) => log_density (app_row m (fill (ls_slots s) vs) (fst xt)) (snd xt)) (paired_means (ls_slots s)) (paired_hess (ls_slots s)) zero' prior
         (option_map (map (rows_of X T)) val') tuning' devices' d' in
       Ok ({| ls_slots := ls_slots s; ls_mutable := ls_mutable s; ls_calib := ls_calib s; ls_calib_mutable := ls_calib_mutable s; ls_log_var := v |}, None, r')).
  { unfold again, laplace_fit, laplace_start, fit_start. rewrite CF. cbn [bind kind_of existsb kind_eqb orb]. cbn [init_map_state rmap bind]. rewrite MM.
    destruct train as [|b tr]; [now elim NE|]. rewrite PS. cbn [bind]. rewrite <- E1, <- E2, <- E3. reflexivity. }
  destruct (fit_end _ _ _ _ _ zero' _ _ _ _ _) as [v r'] eqn:EE. exists v, r'. split; [exact R1|]. split; [|split].
  - intros sfc' current'. unfold again, laplace_fit, laplace_start, fit_start. rewrite CF. reflexivity.
  - intros NV. unfold fit_end in EE. destruct val' as [v'|]; cbn [option_map] in EE; [|injection EE as <- <-; auto].
    destruct NV as [NV| ->]; [discriminate|]. injection EE as <- <-. auto.
  - intros -> -> -> -> ->. rewrite EE in EF. injection EF as -> ->. auto.
Qed.
End LapFit.
