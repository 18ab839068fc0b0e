(** Statements about whole calibrations of outputs. *)
From Coq Require Import List Arith ZArith QArith Bool String Lia.
From Verif Require Import Lib QuantModel PredModel LikModel TrainModel TrainSpec TrainProofs2 TrainProofs4 CalibModel CalibSpec CalibProofs DescSpec DescProofs DescProofs2 CalRunModel CalRunProofs.
Import ListNotations.
Open Scope list_scope.
Local Notation length := List.length.

Lemma mean_of_one : forall row m, is_mean_of [row] m -> Forall2 Qeq row m.
Proof.
  intros row m (_ & L & H). cbn [hd] in L.
  assert (Z : forall (a b : list Q), length b = length a -> (forall j, (j < length b)%nat -> nth j b 0%Q == nth j a 0%Q) -> Forall2 Qeq a b).
  { induction a as [|x a IH]; intros [|y b] E J; try discriminate E; [constructor|]. constructor.
    - symmetry. apply (J 0%nat). cbn. lia.
    - apply IH; [now injection E|]. intros j Hj. apply (J (S j)). cbn. lia. }
  apply Z; [exact L|]. intros j Hj. rewrite (H j Hj). unfold column_mean. cbn. field.
Qed.
Lemma before_one : forall B St (f : St -> B -> St) (b : B) e j s, descend (fun _ => f) j (before e 0 [b]) s = times e (fun s => f s b) s.
Proof.
  intros B St f b e j s. unfold before. cbn [firstn]. rewrite app_nil_r. revert j s. induction e as [|e IH]; intros j s; [reflexivity|].
  change (passes (S e) [b]) with (b :: passes e [b]). cbn [descend times]. apply IH.
Qed.

Theorem full_calibration : forall (P M O T G OS Pr Un : Type) (predict : O -> Pr) (uncertainty : O -> Un) (diff : (P -> Q) -> P -> G) (opt : G -> OS -> P -> P * OS)
    (calibrator : option (P -> bool -> option M -> O -> O * M)) (loss_fn : O -> T -> Q) (metrics : option (list (Pr -> Un -> T -> Q))) training_metrics
    monitor cfg targets outputs val (s s' : tstate P OS G (option (option (cmut M)))) ms mvs,
  (forall f g p, (forall q, f q = g q) -> diff f p = diff g p) -> mutable s = Some None ->
  cal_run_full P (option (cmut M)) T O O T G OS Pr Un predict uncertainty (fun t => t) diff opt (oc_setting calibrator loss_fn metrics training_metrics) monitor cfg targets outputs val s = Ok (s', ms, mvs) ->
  let calibrated := fun train p o => match calibrator with None => o | Some f => fst (f p train None o) end in
  let descent := fun x => opt (diff (fun q => loss_fn (calibrated true q outputs) targets) (fst x)) (snd x) (fst x) in
  let at_ := fun e => times e descent (params s, opt_state s) in
  let row := fun (on : bool) o y => loss_fn o y :: match metrics with Some fs => if on then map (fun f => f (predict o) (uncertainty o) y) fs else [] | None => [] end in
  (length ms <= c_epochs cfg)%nat /\ (is_active (c_stop cfg) = false -> length ms = c_epochs cfg)
  /\ (params s', opt_state s') = at_ (length ms) /\ mutable s' = Some None /\ step s' = (step s + length ms)%nat
  /\ (forall e, (e < length ms)%nat -> Forall2 Qeq (row training_metrics (calibrated true (fst (at_ e)) outputs) targets) (nth e ms []))
  /\ match val with
     | None => mvs = []
     | Some (vt, vo) => Forall2 (fun e m => Forall2 Qeq (row true (calibrated false (fst (at_ (S e))) vo) vt) m) (validation_epochs (c_eval_every cfg) (length ms)) mvs
     end.
Proof.
  intros P M O T G OS Pr Un predict uncertainty diff opt calibrator loss_fn metrics training_metrics monitor cfg targets outputs val s s' ms mvs DE MS RUN calibrated descent at_ row.
  change (cal_run P (option (cmut M)) T O O T G OS Pr Un predict uncertainty (fun t => t) diff opt (oc_setting calibrator loss_fn metrics training_metrics) monitor cfg [targets] [outputs]
    (match val with Some p => Some ([fst p], [snd p]) | None => None end) s = Ok (s', ms, mvs)) in RUN.
  pose proof (cal_run_ok P (option (cmut M)) T O O T G OS Pr Un predict uncertainty (fun t => t) diff DE opt (fun m => m = Some None) (oc_setting calibrator loss_fn metrics training_metrics)
    (fun p b => loss_fn (calibrated true p (snd b)) (fst b)) (fun p b => calibrated true p (snd b)) (Some None)
    (fun p b => loss_fn (calibrated false p (snd b)) (fst b)) (fun p b => calibrated false p (snd b)) monitor cfg [targets] [outputs] (match val with Some p => Some ([fst p], [snd p]) | None => None end) s s' ms mvs MS) as Z.
  specialize (Z ltac:(intros p b o m Em; cbv beta in Em; subst m; split; [destruct calibrator; reflexivity|reflexivity])).
  specialize (Z ltac:(intros p b o m Em; cbv beta in Em; subst m; exists None; destruct calibrator; reflexivity) RUN).
  cbv zeta in Z. destruct Z as (A1 & A2 & A3 & A4 & A5 & A6 & A7). cbn [combine length] in A5.
  assert (DD : forall e, descend (fun (_ : nat) (x : P * OS) b => let '(p, o) := x in opt (diff (fun q => loss_fn (calibrated true q (snd b)) (fst b)) p) o p) (step s) (before e 0 [(targets, outputs)]) (params s, opt_state s) = at_ e).
  { intros e. rewrite (before_one (T * O) (P * OS) (fun x b => let '(p, o) := x in opt (diff (fun q => loss_fn (calibrated true q (snd b)) (fst b)) p) o p)). unfold at_. apply times_ext. intros [p o]. reflexivity. }
  split; [exact A1|]. split; [exact A2|]. split; [rewrite <- DD; exact A3|]. split; [exact A4|]. split; [rewrite A5; lia|]. split.
  - intros e He. specialize (A6 e He). cbn [combine length seq map fst snd] in A6. rewrite DD in A6. apply mean_of_one in A6. exact A6.
  - destruct val as [[vt vo]|]; [|exact A7]. cbn [fst snd combine map] in A7. revert A7. generalize (validation_epochs (c_eval_every cfg) (length ms)) as es. intros es A7.
    clear - A7 DD. induction A7 as [|e m es l X A7 IH]; [constructor|]. constructor; [|exact IH]. cbn [combine] in X. rewrite DD in X. apply mean_of_one in X. exact X.
Qed.

Lemma mapM_total : forall A B (f : A -> result B) g l, (forall x, f x = Ok (g x)) -> mapM f l = Ok (map g l).
Proof. intros A B f g l H. induction l as [|x r IH]; [reflexivity|]. cbn [mapM map]. rewrite H, IH. reflexivity. Qed.
Lemma qsum_total_of : forall l, qsum l = total_of l.
Proof. intros l. reflexivity. Qed.

Lemma descend_ext : forall St B (f g : nat -> St -> B -> St), (forall j s b, f j s b = g j s b) -> forall bs j s, descend f j bs s = descend g j bs s.
Proof. intros St B f g H bs. induction bs as [|b r IH]; intros j s; [reflexivity|]. cbn [descend]. rewrite H. apply IH. Qed.

Section Ens.
Variables P X C O T G OS Pr Un : Type.
Lemma pm_loss_training : forall (calibrator : option (P -> bool -> option C -> O -> O * C)) (log_prob : O -> list T -> list Q) lme mo mm n p (b : X * list T) outs m,
  m = None \/ m = Some None ->
  let cal := fun train q o => match calibrator with None => o | Some f => fst (f q train None o) end in
  pm_answer calibrator log_prob lme mo mm n p b outs m ["outputs"; "calib_mutable"]%string
  = Ok {| ca_loss := (- lme (map (fun o => total_of (log_prob (cal true p o) (snd b)) * (inject_Z (Z.of_nat n) / inject_Z (Z.of_nat (length (snd b))))) outs))%Q;
          ca_outputs := Some (mo (map (cal true p) outs)); ca_mutable := Some None |}
  /\ pm_answer calibrator log_prob lme mo mm n p b outs m ["outputs"%string]
  = Ok {| ca_loss := (- lme (map (fun o => total_of (log_prob (cal false p o) (snd b)) * (inject_Z (Z.of_nat n) / inject_Z (Z.of_nat (length (snd b))))) outs))%Q;
          ca_outputs := Some (mo (map (cal false p) outs)); ca_mutable := None |}.
Proof.
  intros calibrator log_prob lme mo mm n p b outs m HM cal.
  assert (FM : forall A B (g : A -> B) l, flat_map (fun a => [g a]) l = map g l) by (intros A B g l; induction l as [|x r IH]; [reflexivity|]; cbn; now rewrite IH).
  assert (FN : forall A B (l : list A), flat_map (fun _ => @nil B) l = []) by (intros A B l; induction l as [|x r IH]; [reflexivity|exact IH]).
  split; unfold pm_answer;
  (replace (match calibrator with Some _ => match m with Some (Some (Wrapped _)) => Err AttributeError | _ => Ok tt end | None => Ok tt end) with (@Ok unit tt) by (destruct calibrator; destruct HM as [E|E]; subst m; reflexivity)); cbn [bind].
  - rewrite (mapM_total _ _ _ (fun o => ((total_of (log_prob (cal true p o) (snd b)) * (inject_Z (Z.of_nat n) / inject_Z (Z.of_nat (length (snd b)))))%Q,
       Some {| aux_outputs := Some (cal true p o); aux_mutable := None; aux_calib := Some None |}))).
    2:{ intros o. destruct calibrator as [f|]; destruct HM as [E|E]; subst m; reflexivity. }
    cbn [bind].
    assert (M2 : mapM (fun r : Q * option (lik_aux O unit (cmut C)) => match snd r with None => Err TypeError | Some a => Ok a end)
        (map (fun o => ((total_of (log_prob (cal true p o) (snd b)) * (inject_Z (Z.of_nat n) / inject_Z (Z.of_nat (length (snd b)))))%Q, Some {| aux_outputs := Some (cal true p o); aux_mutable := None; aux_calib := Some None |})) outs)
      = Ok (map (fun o => {| aux_outputs := Some (cal true p o); aux_mutable := None; aux_calib := Some None |}) outs)).
    { induction outs as [|o r IH]; [reflexivity|]. cbn [map mapM snd bind]. rewrite IH. reflexivity. }
    rewrite M2. cbn [bind]. f_equal. f_equal.
    + rewrite map_map. reflexivity.
    + match goal with |- (if ?c then _ else _) = _ => change c with true; cbv iota end. f_equal. f_equal. rewrite flat_map_concat_map, map_map. cbn [aux_outputs]. rewrite <- flat_map_concat_map. apply FM.
    + rewrite flat_map_concat_map, map_map. cbn [aux_calib]. rewrite <- flat_map_concat_map, FN. reflexivity.
  - rewrite (mapM_total _ _ _ (fun o => ((total_of (log_prob (cal false p o) (snd b)) * (inject_Z (Z.of_nat n) / inject_Z (Z.of_nat (length (snd b)))))%Q,
       Some {| aux_outputs := Some (cal false p o); aux_mutable := None; aux_calib := None |}))).
    2:{ intros o. destruct calibrator as [f|]; destruct HM as [E|E]; subst m; reflexivity. }
    cbn [bind].
    assert (M2 : mapM (fun r : Q * option (lik_aux O unit (cmut C)) => match snd r with None => Err TypeError | Some a => Ok a end)
        (map (fun o => ((total_of (log_prob (cal false p o) (snd b)) * (inject_Z (Z.of_nat n) / inject_Z (Z.of_nat (length (snd b)))))%Q, Some {| aux_outputs := Some (cal false p o); aux_mutable := None; aux_calib := None |})) outs)
      = Ok (map (fun o => {| aux_outputs := Some (cal false p o); aux_mutable := None; aux_calib := None |}) outs)).
    { induction outs as [|o r IH]; [reflexivity|]. cbn [map mapM snd bind]. rewrite IH. reflexivity. }
    rewrite M2. cbn [bind]. f_equal. f_equal.
    + rewrite map_map. reflexivity.
    + match goal with |- (if ?c then _ else _) = _ => change c with true; cbv iota end. f_equal. f_equal. rewrite flat_map_concat_map, map_map. cbn [aux_outputs]. rewrite <- flat_map_concat_map. apply FM.
Qed.
End Ens.

Theorem ensemble_calibration : forall (P X C O T G OS Pr Un : Type) (predict : O -> Pr) (uncertainty : O -> Un) (diff : (P -> Q) -> P -> G) (opt : G -> OS -> P -> P * OS)
    (calibrator : option (P -> bool -> option C -> O -> O * C)) (log_prob : O -> list T -> list Q) log_mean_exp mean_outputs mean_mutable n_calib n_val
    (metrics : option (list (Pr -> Un -> list T -> Q))) training_metrics
    monitor cfg (data : list (X * list T)) outs val (s s' : tstate P OS G (option (option (cmut C)))) ms mvs,
  (forall f g p, (forall q, f q = g q) -> diff f p = diff g p) -> mutable s = None \/ mutable s = Some None ->
  cal_run P (option (cmut C)) (X * list T) (list O) O (list T) G OS Pr Un predict uncertainty snd diff opt
    (pm_setting calibrator log_prob log_mean_exp mean_outputs mean_mutable n_calib n_val metrics training_metrics) monitor cfg data outs val s = Ok (s', ms, mvs) ->
  let pairs := combine data outs in
  let calibrated := fun train p (ensemble : list O) => map (fun o => match calibrator with None => o | Some f => fst (f p train None o) end) ensemble in
  let objective := fun n ensemble (ys : list T) =>
    (- log_mean_exp (map (fun o => total_of (log_prob o ys) * (inject_Z (Z.of_nat n) / inject_Z (Z.of_nat (length ys)))) ensemble))%Q in
  let descent := fun (_ : nat) x (b : X * list T * list O) => opt (diff (fun q => objective n_calib (calibrated true q (snd b)) (snd (fst b))) (fst x)) (snd x) (fst x) in
  let at_ := fun e i => descend descent (step s) (before e i pairs) (params s, opt_state s) in
  let row := fun (on : bool) n ensemble ys => objective n ensemble ys ::
    match metrics with Some fs => if on then map (fun f => f (predict (mean_outputs ensemble)) (uncertainty (mean_outputs ensemble)) ys) fs else [] | None => [] end in
  (length ms <= c_epochs cfg)%nat /\ (is_active (c_stop cfg) = false -> length ms = c_epochs cfg)
  /\ (params s', opt_state s') = at_ (length ms) 0%nat /\ (mutable s' = None \/ mutable s' = Some None) /\ step s' = (step s + length ms * length pairs)%nat
  /\ (forall e, (e < length ms)%nat ->
        is_mean_of (map (fun ib => row training_metrics n_calib (calibrated true (fst (at_ e (fst ib))) (snd (snd ib))) (snd (fst (snd ib)))) (combine (seq 0 (length pairs)) pairs)) (nth e ms []))
  /\ match val with
     | None => mvs = []
     | Some (vb, vo) => Forall2 (fun e m => is_mean_of (map (fun b => row true n_val (calibrated false (fst (at_ (S e) 0%nat)) (snd b)) (snd (fst b))) (combine vb vo)) m) (validation_epochs (c_eval_every cfg) (length ms)) mvs
     end.
Proof.
  intros P X C O T G OS Pr Un predict uncertainty diff opt calibrator log_prob lme mo mm n_calib n_val metrics training_metrics monitor cfg data outs val s s' ms mvs DE MS RUN pairs calibrated objective descent at_ row.
  pose proof (cal_run_ok P (option (cmut C)) (X * list T) (list O) O (list T) G OS Pr Un predict uncertainty snd diff DE opt (fun m => m = None \/ m = Some None)
    (pm_setting calibrator log_prob lme mo mm n_calib n_val metrics training_metrics)
    (fun p b => objective n_calib (calibrated true p (snd b)) (snd (fst b))) (fun p b => mo (calibrated true p (snd b))) (Some None)
    (fun p b => objective n_val (calibrated false p (snd b)) (snd (fst b))) (fun p b => mo (calibrated false p (snd b))) monitor cfg data outs val s s' ms mvs MS) as Z.
  specialize (Z ltac:(intros p b o m Em; split; [|right; reflexivity]; pose proof (proj1 (pm_loss_training P X C O T calibrator log_prob lme mo mm n_calib p b o m Em)) as W; cbv zeta in W;
    unfold objective, calibrated; cbn [fst snd]; rewrite map_map; exact W)).
  specialize (Z ltac:(intros p b o m Em; exists None; pose proof (proj2 (pm_loss_training P X C O T calibrator log_prob lme mo mm n_val p b o m Em)) as W; cbv zeta in W;
    unfold objective, calibrated; cbn [fst snd]; rewrite map_map; exact W) RUN).
  cbv zeta in Z. fold pairs in Z. destruct Z as (A1 & A2 & A3 & A4 & A5 & A6 & A7).
  assert (DD : forall e i, descend (fun (_ : nat) (x : P * OS) b => let '(p, o) := x in opt (diff (fun q => objective n_calib (calibrated true q (snd b)) (snd (fst b))) p) o p) (step s) (before e i pairs) (params s, opt_state s) = at_ e i).
  { intros e i. unfold at_. apply descend_ext. intros j [p o] b. reflexivity. }
  split; [exact A1|]. split; [exact A2|]. split; [rewrite <- DD; exact A3|]. split; [exact A4|]. split; [exact A5|]. split.
  - intros e He. specialize (A6 e He). revert A6. apply mean_rows_eq. apply map_ext. intros [i b]. cbn [fst snd]. rewrite DD. reflexivity.
  - destruct val as [[vb vo]|]; [|exact A7]. revert A7. generalize (validation_epochs (c_eval_every cfg) (length ms)) as es. intros es A7.
    clear - A7 DD. induction A7 as [|e m es l Y A7 IH]; [constructor|]. constructor; [|exact IH]. revert Y. apply mean_rows_eq. apply map_ext. intros b. rewrite DD. reflexivity.
Qed.

Section Ends.
Variables P Mu B Ou O Y G OS Pr Un : Type.
Variable predict : O -> Pr.
Variable uncertainty : O -> Un.
Variable targets_of : B -> Y.
Variable diff : (P -> Q) -> P -> G.
Variable opt : G -> OS -> P -> P * OS.
Notation tst := (tstate P OS G (option Mu)).
Notation csetting := (csetting P Mu B Ou O Y Pr Un).

Lemma cal_run_total : forall (inv : option Mu -> Prop) (c : csetting) monitor cfg data outs val (s : tst),
  inv (mutable s) ->
  (forall p b o m, inv m -> exists a, cs_loss _ _ _ _ _ _ _ _ c p b o m (cs_aux _ _ _ _ _ _ _ _ c) = Ok a /\ inv (ca_mutable a)) ->
  data <> [] -> outs <> [] -> (forall vb vo, val = Some (vb, vo) -> vb <> [] /\ vo <> []) ->
  (is_active (c_stop cfg) = true -> forall m, monitor m <> None) ->
  exists r, cal_run P Mu B Ou O Y G OS Pr Un predict uncertainty targets_of diff opt c monitor cfg data outs val s = Ok r.
Proof.
  intros inv c monitor cfg data outs val s I HL ND NO NV NM. unfold cal_run.
  set (cstep := cal_step _ _ _ _ _ _ _ _ _ _ _ _ _ _ _ _). set (cval := cal_val _ _ _ _ _ _ _ _ _ _ _ _ _ _).
  destruct (calib_succeeds _ _ _ _ _ (c_step_no P Mu G OS) cstep cval monitor cfg data outs val c_start (Ok s) ND NO NV NM) as ([[[t' s'] ms] mvs] & TR).
  rewrite TR. cbn [finish bind]. enough (Z : exists s2, s' = Ok s2) by (destruct Z as (s2 & ->); eexists; reflexivity).
  apply calib_epochs in TR. cbv zeta in TR. destruct TR as (_ & _ & TR & _). rewrite TR.
  assert (PS : forall ps x, inv (mutable x) -> exists y, calib_pass (c_step_no P Mu G OS) cstep ps (Ok x) = Ok y /\ inv (mutable y)).
  { intros ps. induction ps as [|[b o] r IH]; intros x Ix; [exists x; split; [reflexivity|exact Ix]|].
    unfold calib_pass. cbn [fold_left fst snd]. destruct (HL (params x) b o (mutable x) Ix) as (a & E & Ia).
    unfold cstep at 2, cal_step. rewrite E. cbn [fst]. apply IH. exact Ia. }
  generalize (length ms) as n. intros n. clear - PS I.
  assert (W : exists y, times n (calib_pass (c_step_no P Mu G OS) cstep (combine data outs)) (Ok s) = Ok y /\ inv (mutable y)).
  { induction n as [|n IH]; [exists s; split; [reflexivity|exact I]|]. destruct IH as (y & E & Iy). rewrite times_succ, E. apply PS, Iy. }
  destruct W as (y & E & _). exists y. exact E.
Qed.

Lemma cal_run_fails : forall e (c : csetting) monitor cfg data outs val (s : tst),
  (forall ps x, calib_pass (c_step_no P Mu G OS) (cal_step _ _ _ _ _ _ _ _ _ _ predict uncertainty targets_of diff opt c) ps (Err x) = Err x) ->
  (exists n, (n <= c_epochs cfg)%nat /\ times n (calib_pass (c_step_no P Mu G OS) (cal_step _ _ _ _ _ _ _ _ _ _ predict uncertainty targets_of diff opt c) (combine data outs)) (Ok s) = Err e) ->
  data <> [] -> outs <> [] -> (forall vb vo, val = Some (vb, vo) -> vb <> [] /\ vo <> []) -> is_active (c_stop cfg) = false ->
  cal_run P Mu B Ou O Y G OS Pr Un predict uncertainty targets_of diff opt c monitor cfg data outs val s = Err e.
Proof.
  intros e c monitor cfg data outs val s ST (n & Hn & En) ND NO NV NA. unfold cal_run.
  set (cstep := cal_step _ _ _ _ _ _ _ _ _ _ _ _ _ _ _ _) in *. set (cval := cal_val _ _ _ _ _ _ _ _ _ _ _ _ _ _).
  destruct (calib_succeeds _ _ _ _ _ (c_step_no P Mu G OS) cstep cval monitor cfg data outs val c_start (Ok s) ND NO NV ltac:(rewrite NA; discriminate)) as ([[[t' s'] ms] mvs] & TR).
  rewrite TR. cbn [finish bind]. apply calib_epochs in TR. cbv zeta in TR. destruct TR as (_ & TL & TR & _). rewrite (TL NA) in TR. rewrite TR.
  assert (W : forall d, times (d + n) (calib_pass (c_step_no P Mu G OS) cstep (combine data outs)) (Ok s) = Err e).
  { intros d. induction d as [|d IH]; [exact En|]. change (S d + n)%nat with (S (d + n)). rewrite times_succ, IH. apply ST. }
  replace (c_epochs cfg) with ((c_epochs cfg - n) + n)%nat by lia. rewrite W. reflexivity.
Qed.
End Ends.

Theorem calibrations_succeed : forall (P M X C O T G OS Pr Un : Type) (predict : O -> Pr) (uncertainty : O -> Un) (diff : (P -> Q) -> P -> G) (opt : G -> OS -> P -> P * OS) monitor cfg,
  (is_active (c_stop cfg) = true -> forall m, monitor m <> None) ->
  (forall calibrator (loss_fn : O -> T -> Q) (metrics : option (list (Pr -> Un -> T -> Q))) training_metrics targets outputs val (s : tstate P OS G (option (option (cmut M)))),
     mutable s = Some None ->
     exists r, cal_run_full P (option (cmut M)) T O O T G OS Pr Un predict uncertainty (fun t => t) diff opt (oc_setting calibrator loss_fn metrics training_metrics) monitor cfg targets outputs val s = Ok r)
  /\ (forall calibrator (log_prob : O -> list T -> list Q) log_mean_exp mean_outputs mean_mutable n_calib n_val (metrics : option (list (Pr -> Un -> list T -> Q))) training_metrics
        (data : list (X * list T)) outs val (s : tstate P OS G (option (option (cmut C)))),
     mutable s = None \/ mutable s = Some None -> data <> [] -> outs <> [] -> (forall vb vo, val = Some (vb, vo) -> vb <> [] /\ vo <> []) ->
     exists r, cal_run P (option (cmut C)) (X * list T) (list O) O (list T) G OS Pr Un predict uncertainty snd diff opt
       (pm_setting calibrator log_prob log_mean_exp mean_outputs mean_mutable n_calib n_val metrics training_metrics) monitor cfg data outs val s = Ok r).
Proof.
  intros P M X C O T G OS Pr Un predict uncertainty diff opt monitor cfg NM. split.
  - intros calibrator loss_fn metrics training_metrics targets outputs val s MS.
    apply (cal_run_total P (option (cmut M)) T O O T G OS Pr Un predict uncertainty (fun t => t) diff opt (fun m => m = Some None) (oc_setting calibrator loss_fn metrics training_metrics) monitor cfg [targets] [outputs]
      (match val with Some p => Some ([fst p], [snd p]) | None => None end) s MS); try discriminate; [|destruct val as [p|]; intros vb vo E; [injection E as <- <-; split; discriminate|discriminate E]|exact NM].
    intros p b o m Em. cbv beta in Em. subst m. destruct calibrator; eexists; (split; [reflexivity|reflexivity]).
  - intros calibrator log_prob lme mo mm n_calib n_val metrics training_metrics data outs val s MS ND NO NV.
    apply (cal_run_total P (option (cmut C)) (X * list T) (list O) O (list T) G OS Pr Un predict uncertainty snd diff opt (fun m => m = None \/ m = Some None)); try assumption.
    intros p b o m Em. eexists. split; [exact (proj1 (pm_loss_training P X C O T calibrator log_prob lme mo mm n_calib p b o m Em))|right; reflexivity].
Qed.

Theorem mutable_calibration_fails : forall (P M O T G OS Pr Un : Type) (predict : O -> Pr) (uncertainty : O -> Un) (diff : (P -> Q) -> P -> G) (opt : G -> OS -> P -> P * OS)
    (f : P -> bool -> option M -> O -> O * M) (loss_fn : O -> T -> Q) (metrics : option (list (Pr -> Un -> T -> Q))) training_metrics
    monitor cfg targets outputs val (s : tstate P OS G (option (option (cmut M)))) m,
  mutable s = Some (Some (Frozen m)) -> (2 <= c_epochs cfg)%nat -> is_active (c_stop cfg) = false ->
  cal_run_full P (option (cmut M)) T O O T G OS Pr Un predict uncertainty (fun t => t) diff opt (oc_setting (Some f) loss_fn metrics training_metrics) monitor cfg targets outputs val s = Err AttributeError.
Proof.
  intros P M O T G OS Pr Un predict uncertainty diff opt f loss_fn metrics training_metrics monitor cfg targets outputs val s m MS NE NA.
  apply (cal_run_fails P (option (cmut M)) T O O T G OS Pr Un predict uncertainty (fun t => t) diff opt AttributeError (oc_setting (Some f) loss_fn metrics training_metrics) monitor cfg [targets] [outputs]
      (match val with Some p => Some ([fst p], [snd p]) | None => None end) s); try discriminate; try assumption.
  - intros ps x. induction ps as [|p r IH]; [reflexivity|exact IH].
  - exists 2%nat. split; [exact NE|]. cbn [times combine]. unfold calib_pass. cbn [fold_left fst snd]. unfold cal_step at 2. rewrite MS. reflexivity.
  - destruct val as [p|]; intros vb vo E; [injection E as <- <-; split; discriminate|discriminate E].
Qed.

Theorem mutable_ensemble_fails : forall (P X C O T G OS Pr Un : Type) (predict : O -> Pr) (uncertainty : O -> Un) (diff : (P -> Q) -> P -> G) (opt : G -> OS -> P -> P * OS)
    (f : P -> bool -> option C -> O -> O * C) (log_prob : O -> list T -> list Q) log_mean_exp mean_outputs mean_mutable n_calib n_val
    (metrics : option (list (Pr -> Un -> list T -> Q))) training_metrics monitor cfg (data : list (X * list T)) outs val (s : tstate P OS G (option (option (cmut C)))) m,
  mutable s = Some (Some (Frozen m)) -> Forall (fun ensemble => ensemble <> []) outs -> (2 <= c_epochs cfg * length (combine data outs))%nat ->
  (forall vb vo, val = Some (vb, vo) -> vb <> [] /\ vo <> []) -> is_active (c_stop cfg) = false ->
  cal_run P (option (cmut C)) (X * list T) (list O) O (list T) G OS Pr Un predict uncertainty snd diff opt
    (pm_setting (Some f) log_prob log_mean_exp mean_outputs mean_mutable n_calib n_val metrics training_metrics) monitor cfg data outs val s = Err AttributeError.
Proof.
  intros P X C O T G OS Pr Un predict uncertainty diff opt f log_prob lme mo mm n_calib n_val metrics training_metrics monitor cfg data outs val s m MS NE N2 NV NA.
  set (c := pm_setting (Some f) log_prob lme mo mm n_calib n_val metrics training_metrics).
  set (pairs := combine data outs) in *.
  set (cstep := cal_step P (option (cmut C)) (X * list T) (list O) O (list T) G OS Pr Un predict uncertainty snd diff opt c).
  assert (NP : Forall (fun p => snd p <> []) pairs).
  { apply Forall_forall. intros [b o] H. apply in_combine_r in H. exact (proj1 (Forall_forall _ _) NE o H). }
  assert (ND : data <> [] /\ outs <> []).
  { unfold pairs in N2. destruct data; [cbn in N2; lia|]. destruct outs; [cbn in N2; lia|]. split; discriminate. }
  assert (ST : forall ps x, calib_pass (c_step_no P (option (cmut C)) G OS) cstep ps (Err x) = Err x).
  { intros ps x. induction ps as [|p r IH]; [reflexivity|exact IH]. }
  assert (S2 : forall x w b o k, mutable x = Some (Some (Wrapped w)) -> fst (cstep (Ok x) b o k) = Err AttributeError).
  { intros x w b o k Hx. unfold cstep, cal_step. rewrite Hx. reflexivity. }
  assert (S1 : forall x b o k, mutable x = Some (Some (Frozen m)) -> o <> [] -> exists y w, fst (cstep (Ok x) b o k) = Ok y /\ mutable y = Some (Some (Wrapped w))).
  { intros x b o k Hx Ho. unfold cstep, cal_step.
    assert (Z : exists v ou w, cs_loss _ _ _ _ _ _ _ _ c (params x) b o (mutable x) (cs_aux _ _ _ _ _ _ _ _ c) = Ok {| ca_loss := v; ca_outputs := ou; ca_mutable := Some (Some (Wrapped w)) |}).
    { rewrite Hx. unfold c. cbn [cs_loss cs_aux pm_setting]. unfold pm_answer. cbn [bind].
      rewrite (mapM_total _ _ _ (fun e => ((total_of (log_prob (fst (f (params x) true (Some m) e)) (snd b)) * (inject_Z (Z.of_nat n_calib) / inject_Z (Z.of_nat (length (snd b)))))%Q,
        Some {| aux_outputs := Some (fst (f (params x) true (Some m) e)); aux_mutable := None; aux_calib := Some (Some (Wrapped (snd (f (params x) true (Some m) e)))) |}))) by (intros e; reflexivity).
      cbn [bind].
      match goal with |- context [mapM ?g (map ?h o)] => assert (M2 : mapM g (map h o) = Ok (map (fun e => {| aux_outputs := Some (fst (f (params x) true (Some m) e)); aux_mutable := None; aux_calib := Some (Some (Wrapped (snd (f (params x) true (Some m) e)))) |}) o)) end.
      { clear. induction o as [|e r IH]; [reflexivity|]. cbn [map mapM snd bind]. rewrite IH. reflexivity. }
      rewrite M2. cbn [bind]. destruct o as [|e r]; [contradiction Ho; reflexivity|]. cbn [map flat_map aux_calib app]. eexists _, _, _. reflexivity. }
    destruct Z as (v & ou & w & Z). rewrite Z. cbn [fst ca_mutable]. eexists _, w. split; reflexivity. }
  apply (cal_run_fails P (option (cmut C)) (X * list T) (list O) O (list T) G OS Pr Un predict uncertainty snd diff opt AttributeError c); try assumption; [|exact (proj1 ND)|exact (proj2 ND)].
  exists (c_epochs cfg). split; [apply le_n|]. fold cstep. fold pairs.
  destruct (c_epochs cfg) as [|n]; [cbn in N2; lia|]. destruct pairs as [|[b o] r]; [rewrite Nat.mul_0_r in N2; lia|].
  inversion NP as [|? ? NO NR]; subst. cbn [snd] in NO.
  assert (TE : forall k x, times k (calib_pass (c_step_no P (option (cmut C)) G OS) cstep ((b, o) :: r)) (Err x) = Err x).
  { induction k as [|k IH]; intros x; [reflexivity|]. cbn [times]. rewrite ST. apply IH. }
  cbn [times]. unfold calib_pass at 2. cbn [fold_left fst snd]. destruct (S1 s b o (c_step_no P (option (cmut C)) G OS (Ok s)) MS NO) as (y & w & E & Y). rewrite E.
  destruct r as [|[b2 o2] r].
  - destruct n as [|n]; [cbn in N2; lia|]. cbn [times]. unfold calib_pass at 2. cbn [fold_left fst snd]. rewrite (S2 _ _ _ _ _ Y). apply TE.
  - cbn [fold_left fst snd]. rewrite (S2 _ _ _ _ _ Y). change (fold_left ?g r (Err AttributeError)) with (calib_pass (c_step_no P (option (cmut C)) G OS) cstep r (Err AttributeError)). rewrite ST. apply TE.
Qed.
