(** Whole fits of Laplace posteriors (LapFitModel.v): training, exact curvature, predictions. *)
From Coq Require Import List Arith ZArith QArith Bool String Reals Lia Lra.
From Verif Require Import Lib QuantModel TempModel TempSpec PredModel PredSpec LikModel LikProofs2 CalibModel TrainModel TrainSpec TrainProofs4 DescModel DescSpec DescProofs3 DescProofs4 CalRunModel CalRunProofs2 DrawModel DrawSpec DrawProofs DrawProofs2 WholeModel WholeProofs WholeProofs2 LapModel LapSpec LapProofs2 TuneModel TuneSpec TuneProofs TuneProofs2 LapFitModel LapFitSpec LapFitProofs LapFitProofs2.
Import ListNotations.
Open Scope list_scope.
Local Notation length := List.length.
Local Notation concat := List.concat.
Local Notation P := (list R).
Local Notation Y := (list R).

(** ---- second derivatives ---- *)
Lemma second_ext f g d : (forall t, f t = g t) -> second_derivative_at_0 f d -> second_derivative_at_0 g d.
Proof. intros E (f' & A & B). exists f'. split; [|exact B]. intros t. exact (deriv_ext f g t _ E (A t)). Qed.
Lemma second_const a : second_derivative_at_0 (fun _ => a) 0.
Proof. exists (fct_cte 0%R). split; [intros t; apply derivable_pt_lim_const|apply derivable_pt_lim_const]. Qed.
Lemma second_plus f g a b : second_derivative_at_0 f a -> second_derivative_at_0 g b -> second_derivative_at_0 (fun t => f t + g t)%R (a + b).
Proof.
  intros (f' & A & B) (g' & A' & B'). exists (fun t => f' t + g' t)%R. split; [intros t|]; [apply (derivable_pt_lim_plus f g); auto|apply (derivable_pt_lim_plus f' g'); auto].
Qed.
Lemma second_opp f a : second_derivative_at_0 f a -> second_derivative_at_0 (fun t => - f t)%R (- a).
Proof. intros (f' & A & B). exists (fun t => - f' t)%R. split; [intros t|]; [apply (derivable_pt_lim_opp f); auto|apply (derivable_pt_lim_opp f'); auto]. Qed.
Lemma second_total {A} (f : A -> R -> R) (d : A -> R) l : (forall a, In a l -> second_derivative_at_0 (f a) (d a)) ->
  second_derivative_at_0 (fun t => rtotal (map (fun a => f a t) l)) (rtotal (map d l)).
Proof.
  induction l as [|a l IH]; intros H; cbn [map]; unfold rtotal in *; cbn [fold_right]; [apply second_const|].
  apply second_plus; [apply H; now left|apply IH; intros b Hb; apply H; now right].
Qed.

(** ---- the prior ---- *)
Lemma prior_density v q : prior_log_prob v q = gaussian_log_density v q.
Proof.
  destruct v as [v|vs]; cbn [prior_log_prob gaussian_log_density]; [apply isotropic_density|].
  unfold diagonal_log_prob. set (l := combine vs q). induction l as [|[v x] l IH]; cbn [map]; [cbn; lra|].
  change (rtotal (normal_log_density (snd (v, x)) 0 (exp (fst (v, x))) :: map (fun vx : R * R => normal_log_density (snd vx) 0 (exp (fst vx))) l))
    with (normal_log_density x 0 (exp v) + rtotal (map (fun vx : R * R => normal_log_density (snd vx) 0 (exp (fst vx))) l))%R.
  rewrite <- IH, gauss0. cbn [fst snd]. unfold rsum. cbn [fold_right]. lra.
Qed.
Lemma gaussian_coordinates v q : fits v (length q) -> gaussian_log_density v q = rtotal (map (fun i => normal_log_density (nth i q 0) 0 (exp (entry v i)))%R (seq 0 (length q))).
Proof.
  destruct v as [v|vs]; cbn [gaussian_log_density fits entry]; intros F.
  - f_equal. clear F. induction q as [|x q IH]; [reflexivity|]. cbn [length seq map nth]. f_equal. rewrite <- seq_shift, map_map. exact IH.
  - f_equal. revert vs F. induction q as [|x q IH]; intros vs F; [destruct vs; [reflexivity|discriminate]|]. destruct vs as [|v vs]; [discriminate|].
    cbn [combine map length seq nth fst snd]. f_equal. rewrite <- seq_shift, map_map. apply IH. now injection F.
Qed.
Lemma prior_second v p c : fits v (length p) -> (c < length p)%nat ->
  second_derivative_at_0 (fun t => gaussian_log_density v (bump p c t)) (- exp (- entry v c)).
Proof.
  intros F L. apply (second_ext (fun t => rtotal (map (fun i => normal_log_density (nth i (bump p c t) 0) 0 (exp (entry v i))) (seq 0 (length p))))%R).
  - intros t. rewrite gaussian_coordinates by now rewrite bump_length. now rewrite bump_length.
  - assert (E : (- exp (- entry v c))%R = rtotal (map (fun i => if (c =? i)%nat then (- exp (- entry v i))%R else 0%R) (seq 0 (length p)))).
    { symmetry. exact (rover_delta (length p) c (fun i => - exp (- entry v i))%R L). }
    rewrite E. apply (second_total (fun i t => normal_log_density (nth i (bump p c t) 0) 0 (exp (entry v i)))%R). intros i Hi. apply in_seq in Hi.
    destruct (Nat.eqb_spec c i) as [<-|N].
    + pose proof (regression_hessian (nth c p 0) 0 (entry v c) (fun k => match k with O => -1 | _ => 0 end)%R) as H. rewrite quad_gauss in H.
      replace (- exp (- entry v c))%R with (- exp (- entry v c) * (-1 * -1 + 2 * (nth c p 0 - 0) * -1 * 0 + (nth c p 0 - 0) * (nth c p 0 - 0) * (0 * 0) / 2))%R by field.
      eapply second_ext; [|exact H]. intros t. cbv beta. rewrite nth_bump by lia. rewrite Nat.eqb_refl. unfold normal_log_density.
      replace (entry v c + t * 0)%R with (entry v c) by ring. replace (nth c p 0 - (0 + t * -1))%R with (nth c p 0 + t - 0)%R by ring. reflexivity.
    + apply (second_ext (fun _ => normal_log_density (nth i p 0) 0 (exp (entry v i)))); [|apply second_const]. intros t. rewrite nth_bump by lia.
      destruct (Nat.eqb_spec i c); [congruence|reflexivity].
Qed.

Section LapFit.
Context {M X T K G OS Pr Un C CM : Type}.
Context (row : P -> option M -> X -> Y) (net_train : P -> option K -> option M -> list X -> list Y * M) (net_mutable : P -> option M -> list X -> M)
  (has_calibrator : bool) (cal_row : C -> option CM -> Y -> Y) (cal_train : C -> option CM -> list Y -> list Y * CM) (cal_mutable : C -> option CM -> list Y -> CM)
  (predict : list Y -> Pr) (fold_in : nat -> nat -> K) (diff : (P -> Q) -> P -> G) (gadd : G -> G -> G) (gdiv : G -> nat -> G) (zeros_like : G -> G) (clip_by : Q -> G -> G)
  (opt : G -> OS -> P -> P * OS) (opt_init : P -> OS)
  (metrics : option (list (Pr -> option Un -> list T -> Q))) (training_metrics : bool) (h : hyper) (monitor : list Q -> option Q) (cfg : config)
  (fl : R -> Q) (prior : log_var) (log_density : Y -> T -> R) (jac : (P -> Y) -> P -> nat -> nat -> R) (hessian : (Y -> R) -> Y -> nat -> nat -> R)
  (eigh : nat -> (nat -> nat -> R) -> (nat -> R) * (nat -> nat -> R)) (label : nat -> nat) (noise : key -> nat -> R).
Hypothesis Hdiff : forall f g p, (forall q, f q = g q) -> diff f p = diff g p.
Hypothesis Hacc : forall a, h_accumulation h = Some a -> (a <= 1)%nat.
Notation mbr := (WholeModel.member P M C CM) (only parsing).
Notation lstate := (lap_state M C CM).
Notation fit := (laplace_fit row net_train net_mutable has_calibrator cal_row cal_train cal_mutable predict fold_in diff gadd gdiv zeros_like clip_by opt opt_init metrics training_metrics h monitor cfg
  fl prior log_density jac hessian eigh label noise).
Notation prelim := (preliminary M X T K G OS Pr Un C CM row net_train net_mutable has_calibrator cal_row cal_train cal_mutable predict fold_in diff gadd gdiv zeros_like clip_by opt opt_init metrics training_metrics h monitor cfg
  fl prior log_density).
Notation curv := (curvature M X T C CM row has_calibrator cal_row log_density jac hessian eigh).
Notation app_row := (apply_row M X C CM row has_calibrator cal_row).
Notation out m := (outputs_at row has_calibrator cal_row (mb_mutable m) (mb_calib m) (mb_calib_mutable m)).

Lemma app_row_eq (m : mbr) q x : app_row m q x = out m q x.
Proof. reflexivity. Qed.

(** the preliminary fit *)
Definition l_update (train : list (list X * list T)) (c : C) : nat -> P * OS * option M -> list X * list T -> P * OS * option M :=
  gradient_update diff (fun g => match h_norm h with Some b => if Qlt_le_dec 0 b then clip_by b g else g | None => g end) opt (fold_in 0)
    (fun key p m b => (- (total_of (map (fun yt => fl (log_density (fst yt) (snd yt)))
                                        (combine (let ys := fst (net_train p (Some key) m (fst b)) in if has_calibrator then map (cal_row c None) ys else ys) (snd b)))
                          * (inject_Z (Z.of_nat (length (concat (map fst train)))) / inject_Z (Z.of_nat (length (snd b)))) + fl (gaussian_log_density prior p)))%Q)
    (fun key p m b => match m with Some _ => Some (snd (net_train p (Some key) m (fst b))) | None => None end).
Lemma prelim_spec : forall init train val m ms mvs, mb_calib_mutable init = None \/ mb_calib_mutable init = Some None -> prelim init train val = Ok (m, (ms, mvs)) ->
  let trained := descend (l_update train (mb_calib init)) 0 (passes (length ms) train) (mb_params init, opt_init (mb_params init), mb_mutable init) in
  (length ms <= n_epochs cfg)%nat /\ (is_active (stop_config cfg) = false -> length ms = n_epochs cfg)
  /\ mb_params m = fst (fst trained) /\ mb_mutable m = snd trained /\ mb_calib m = mb_calib init /\ mb_calib_mutable m = mb_calib_mutable init.
Proof.
  intros init train val m ms mvs PL E trained. unfold preliminary in E. apply fit_member_spec in E; auto.
  destruct E as (E1 & E2 & E3 & E4 & E5 & E6). split; [exact E1|]. split; [exact E2|].
  assert (U : forall x, descend (update net_train has_calibrator cal_row fold_in diff clip_by opt (fun p => fl (prior_log_prob prior p)) (fun ys ts => map (fun yt => fl (log_density (fst yt) (snd yt))) (combine ys ts)) h train (mb_calib init) 0) 0 (passes (length ms) train) x
    = descend (l_update train (mb_calib init)) 0 (passes (length ms) train) x).
  { intros x. apply descend_ext. intros i [[p o] mu] b. unfold update, l_update, gradient_update, clip. cbn [fst snd].
    assert (D : diff (fun p' => (- (total_of (map (fun yt : Y * T => fl (log_density (fst yt) (snd yt))) (combine (fitted_outputs has_calibrator cal_row (mb_calib init) (fst (net_train p' (Some (fold_in 0%nat i)) mu (fst b)))) (snd b))) * scaled (length (concat (map fst train))) (snd b) + fl (prior_log_prob prior p')))%Q) p
      = diff (fun p' => (- (total_of (map (fun yt => fl (log_density (fst yt) (snd yt)))
                                        (combine (let ys := fst (net_train p' (Some (fold_in 0%nat i)) mu (fst b)) in if has_calibrator then map (cal_row (mb_calib init) None) ys else ys) (snd b)))
                          * (inject_Z (Z.of_nat (length (concat (map fst train)))) / inject_Z (Z.of_nat (length (snd b)))) + fl (gaussian_log_density prior p')))%Q) p).
    { apply Hdiff. intros p'. rewrite prior_density. reflexivity. }
    rewrite D. reflexivity. }
  unfold WholeProofs.trained in E3, E4. rewrite U in E3, E4. auto.
Qed.

Lemma init_map_stands s (m : mbr) : init_map_state M C CM s = Ok m <-> stands_at s m.
Proof.
  destruct s as [m'|s|]; cbn [init_map_state stands_at].
  - split; [intros E; now injection E|congruence].
  - assert (ME : map slot_mean (ls_slots s) = map (fun sl => match sl with Plain x | Paired x _ => x end) (ls_slots s)) by reflexivity. split.
    + intros E. injection E as <-. cbn. auto.
    + intros (A & B & D & E). unfold lap_member. f_equal. rewrite ME. destruct m. cbn in *. congruence.
  - split; [discriminate|easy].
Qed.

(** where a fit starts *)
Definition started restore (sfc : bool) current mapc (train : list (list X * list T)) (m : mbr) (status : option (list (list Q) * list (list Q))) : Prop :=
  match restore, sfc, mapc with
  | Some r0, _, _ => status = None /\ exists s0 : stored M C CM, r0 = Ok s0 /\ stands_at s0 m
  | None, true, _ => status = None /\ exists s0, current = Some (Ok s0) /\ stands_at s0 m
  | None, false, Some init =>
      exists ms mvs, status = Some (ms, mvs) /\ (length ms <= n_epochs cfg)%nat /\ (is_active (stop_config cfg) = false -> length ms = n_epochs cfg) /\
        let trained := descend (l_update train (mb_calib init)) 0 (passes (length ms) train) (mb_params init, opt_init (mb_params init), mb_mutable init) in
        mb_params m = fst (fst trained) /\ mb_mutable m = snd trained /\ mb_calib m = mb_calib init /\ mb_calib_mutable m = mb_calib_mutable init
  | None, false, None => False
  end.
Lemma origin_started restore sfc current mapc train val m status :
  (forall init, mapc = Some init -> mb_calib_mutable init = None \/ mb_calib_mutable init = Some None) ->
  origin row net_train net_mutable has_calibrator cal_row cal_train cal_mutable predict fold_in diff gadd gdiv zeros_like clip_by opt opt_init metrics training_metrics h monitor cfg fl prior log_density restore sfc current mapc train val m status ->
  started restore sfc current mapc train m status.
Proof.
  intros PL. unfold origin, started. destruct restore as [r0|]; [|destruct sfc; [|destruct mapc as [init|]]].
  - intros (A & s0 & B & D). split; [exact A|]. exists s0. split; [exact B|]. now apply init_map_stands.
  - intros (A & s0 & B & D). split; [exact A|]. exists s0. split; [exact B|]. now apply init_map_stands.
  - intros ([ms mvs] & A & B). exists ms, mvs. split; [exact A|]. apply (prelim_spec init train val m ms mvs (PL init eq_refl) B).
  - easy.
Qed.

Theorem fit_whole : forall which dump dir restore sfc current mapc train val tuning zero devices d s status r,
  differentiates jac -> (forall init, mapc = Some init -> mb_calib_mutable init = None \/ mb_calib_mutable init = Some None) ->
  fit which dump dir restore sfc current mapc train val tuning zero devices d = Ok (s, status, r) -> selects which (length (ls_slots s)) ->
  exists m, started restore sfc current mapc train m status
    /\ let p := mb_params m in let data := concat (map (fun b => combine (fst b) (snd b)) train) in
       let H := fun xt : X * T => hessian (fun o => log_density o (snd xt)) (out m p (fst xt)) in
       length (ls_slots s) = length p
       /\ (forall c, (c < length p)%nat -> ~ trainable which c -> nth_error (ls_slots s) c = Some (Plain (nth c p 0%R)))
       /\ (forall c, (c < length p)%nat -> trainable which c -> exists hess, nth_error (ls_slots s) c = Some (Paired (nth c p 0%R) hess)
            /\ forall D : X * T -> nat -> R,
               (forall xt, In xt data -> let n := length (out m p (fst xt)) in eigen_decomposition n (H xt) (fst (eigh n (H xt))) (snd (eigh n (H xt)))) ->
               (forall xt o, In xt data -> (o < length (out m p (fst xt)))%nat -> derivable_pt_lim (fun t => nth o (out m (bump p c t) (fst xt)) 0%R) 0 (D xt o)) ->
               hess = (- rtotal (map (fun xt => quad (length (out m p (fst xt))) (H xt) (D xt)) data))%R)
       /\ ls_mutable s = mb_mutable m /\ ls_calib s = mb_calib m /\ ls_calib_mutable s = mb_calib_mutable m
       /\ (val = None \/ tuning = false -> ls_log_var s = prior /\ r = Ok tt).
Proof.
  intros which dump dir restore sfc current mapc train val tuning zero devices d s status r J PL E S.
  destruct (fit_state row net_train net_mutable has_calibrator cal_row cal_train cal_mutable predict fold_in diff gadd gdiv zeros_like clip_by opt opt_init metrics training_metrics h monitor cfg fl prior log_density jac hessian eigh label noise
    which dump dir restore sfc current mapc train val tuning zero devices d s status r J E S) as (m & O & REST).
  exists m. split; [exact (origin_started _ _ _ _ _ _ _ _ PL O)|]. exact REST.
Qed.

(** exact curvature *)
Theorem fit_exact : forall which dump dir restore sfc current mapc train val tuning zero devices d s status r,
  differentiates jac -> fit which dump dir restore sfc current mapc train val tuning zero devices d = Ok (s, status, r) -> selects which (length (ls_slots s)) ->
  fits prior (length (ls_slots s)) ->
  let p := map (fun sl => match sl with Plain x | Paired x _ => x end) (ls_slots s) in
  let out := outputs_at row has_calibrator cal_row (ls_mutable s) (ls_calib s) (ls_calib_mutable s) in
  let data := concat (map (fun b => combine (fst b) (snd b)) train) in
  let H := fun xt : X * T => hessian (fun o => log_density o (snd xt)) (out p (fst xt)) in
  (forall xt, In xt data -> let n := length (out p (fst xt)) in eigen_decomposition n (H xt) (fst (eigh n (H xt))) (snd (eigh n (H xt)))) ->
  (forall xt v, In xt data -> second_derivative_at_0 (fun t => log_density (moved (out p (fst xt)) v t) (snd xt)) (quad (length (out p (fst xt))) (H xt) v)) ->
  forall c x hess, nth_error (ls_slots s) c = Some (Paired x hess) ->
  forall D : X * T -> nat -> R, (forall xt t, In xt data -> out (bump p c t) (fst xt) = moved (out p (fst xt)) (D xt) t) ->
  second_derivative_at_0 (fun t => - (rtotal (map (fun xt => log_density (out (bump p c t) (fst xt)) (snd xt)) data) + gaussian_log_density prior (bump p c t)))%R (exp (- entry prior c) + hess)%R.
Proof.
  intros which dump dir restore sfc current mapc train val tuning zero devices d s status r J E S F p out0 data H HE HH c x hess N D HD.
  destruct (fit_state row net_train net_mutable has_calibrator cal_row cal_train cal_mutable predict fold_in diff gadd gdiv zeros_like clip_by opt opt_init metrics training_metrics h monitor cfg fl prior log_density jac hessian eigh label noise
    which dump dir restore sfc current mapc train val tuning zero devices d s status r J E S) as (m & _ & LP & FR & TR & E1 & E2 & E3 & _).
  assert (CL : (c < length (ls_slots s))%nat) by (apply nth_error_Some; rewrite N; discriminate).
  assert (PE : p = mb_params m).
  { unfold p. apply (nth_ext _ _ 0%R 0%R); [now rewrite map_length, LP|]. intros i Hi. rewrite map_length in Hi.
    assert (DEC : trainable which i \/ ~ trainable which i) by (destruct which as [w|]; [destruct (in_dec Nat.eq_dec i w); auto|left; exact I]).
    set (f := fun sl => _). rewrite (nth_indep _ 0%R (f (Plain 0))) by now rewrite map_length. rewrite (map_nth f). destruct DEC as [T0|T0].
    - destruct (TR i ltac:(lia) T0) as (hh & A & _). apply (nth_error_nth _ _ (Plain 0%R)) in A. now rewrite A.
    - pose proof (FR i ltac:(lia) T0) as A. apply (nth_error_nth _ _ (Plain 0%R)) in A. now rewrite A. }
  assert (OE0 : out0 = app_row m). { unfold out0. rewrite E1, E2, E3. reflexivity. }
  assert (OE : forall q y, out0 q y = app_row m q y) by (intros q y; now rewrite OE0).
  assert (T0 : trainable which c).
  { destruct which as [w|]; [|exact I]. cbn. destruct (in_dec Nat.eq_dec c w) as [I0|I0]; [exact I0|]. rewrite (FR c ltac:(lia) I0) in N. discriminate. }
  destruct (TR c ltac:(lia) T0) as (hh & A & B). rewrite N in A. injection A as -> ->.
  assert (HV : hh = (- rtotal (map (fun xt => quad (length (out0 p (fst xt))) (H xt) (D xt)) data))%R).
  { unfold H. rewrite OE0, PE. apply (B D).
    - intros xt I0. specialize (HE xt I0). unfold H in HE. rewrite PE, OE in HE. exact HE.
    - intros xt o I0 Ho. apply (deriv_ext (fun t => nth o (app_row m (mb_params m) (fst xt)) 0 + t * D xt o)%R); [|apply deriv_affine].
      intros t. rewrite <- PE, <- !OE. rewrite HD by exact I0. symmetry. apply moved_nth. rewrite OE, PE. exact Ho. }
  replace (exp (- entry prior c) + hh)%R with (- (rtotal (map (fun xt => quad (length (out0 p (fst xt))) (H xt) (D xt)) data) + - exp (- entry prior c)))%R by (rewrite HV; ring).
  apply second_opp. apply second_plus.
  - apply (second_total (fun xt t => log_density (out0 (bump p c t) (fst xt)) (snd xt))). intros xt I0.
    apply (second_ext (fun t => log_density (moved (out0 p (fst xt)) (D xt) t) (snd xt))); [intros t; now rewrite HD|]. now apply HH.
  - apply prior_second; unfold p; rewrite map_length; [exact F|exact CL].
Qed.
End LapFit.
