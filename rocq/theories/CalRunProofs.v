(** Proofs for CalRunModel.v. *)
From Coq Require Import List Arith ZArith QArith Bool String Lia.
From Verif Require Import Lib QuantModel PredModel LikModel TrainModel TrainSpec TrainProofs2 TrainProofs4 CalibModel CalibSpec CalibProofs DescSpec DescProofs DescProofs2 CalRunModel.
Import ListNotations.
Open Scope list_scope.
Local Notation length := List.length.

Lemma reports_pass : forall S B O A step_no (cstep : S -> B -> O -> nat -> S * A) ps s,
  calib_reports step_no cstep ps s = snd (one_pass step_no (fun s p j => cstep s (fst p) (snd p) j) (fun s => s) ps s).
Proof.
  intros S B O A step_no cstep ps. induction ps as [|[b o] r IH]; intros s; [reflexivity|]. cbn [calib_reports one_pass fst snd].
  destruct (cstep s b o (step_no s)) as [s1 a]. cbn [fst snd]. rewrite IH.
  destruct (one_pass step_no (fun s p j => cstep s (fst p) (snd p) j) (fun s => s) r s1). reflexivity.
Qed.

Section Loop.
Variables St B Ou : Type.
Variable stp : St -> nat.
Variable inv : St -> Prop.
Variable U : nat -> St -> B * Ou -> St.
Variable R : St -> B * Ou -> nat -> list Q.
Variable cstep : result St -> B -> Ou -> nat -> result St * list Q.
Hypothesis H : forall s b o j, inv s -> cstep (Ok s) b o j = (Ok (U j s (b, o)), R s (b, o) j) /\ stp (U j s (b, o)) = S (stp s) /\ inv (U j s (b, o)).

Lemma cal_loop_ok : forall (cval : result St -> B -> Ou -> list Q) monitor c data outs val t s t' s' ms mvs, inv s ->
  calib_train (result St) B Ou B Ou (sno St stp) cstep cval monitor c data outs val t (Ok s) = Ok (t', s', ms, mvs) ->
  let bs := combine data outs in
  let at_ := fun e i => descend U (stp s) (before e i bs) s in
  (length ms <= c_epochs c)%nat /\ (is_active (c_stop c) = false -> length ms = c_epochs c)
  /\ s' = Ok (at_ (length ms) 0%nat) /\ stp (at_ (length ms) 0%nat) = (stp s + length ms * length bs)%nat /\ inv (at_ (length ms) 0%nat)
  /\ (forall e, (e < length ms)%nat ->
        is_mean_of (map (fun ib => R (at_ e (fst ib)) (snd ib) (stp s + e * length bs + fst ib)) (combine (seq 0 (length bs)) bs)) (nth e ms []))
  /\ match val with
     | None => mvs = []
     | Some (vb, vo) => Forall2 (fun e m => is_mean_of (map (fun p => cval (Ok (at_ (S e) 0%nat)) (fst p) (snd p)) (combine vb vo)) m) (validation_epochs (c_eval_every c) (length ms)) mvs
     end.
Proof.
  intros cval monitor c data outs val t s t' s' ms mvs I T bs at_.
  destruct (@calib_epochs _ _ _ _ _ _ _ _ _ _ _ _ _ _ _ _ _ _ _ T) as (A1 & A2 & A3 & A4 & A5).
  fold bs in A3, A4, A5.
  set (tstep := fun (s : result St) (p : B * Ou) j => cstep s (fst p) (snd p) j).
  assert (HT : forall s b j, inv s -> tstep (Ok s) b j = (Ok (U j s b), R s b j) /\ stp (U j s b) = S (stp s) /\ inv (U j s b)).
  { intros x [b o] j Ix. unfold tstep. cbn [fst snd]. apply H, Ix. }
  assert (EP : forall n, times n (calib_pass (sno St stp) cstep bs) (Ok s) = Ok (descend U (stp s) (passes n bs) s)
     /\ stp (descend U (stp s) (passes n bs) s) = (stp s + n * length bs)%nat /\ inv (descend U (stp s) (passes n bs) s)).
  { intros n. exact (epochs_ok St (B * Ou) stp inv U R tstep HT bs n s I). }
  assert (Z : forall e, at_ e 0%nat = descend U (stp s) (passes e bs) s) by (intros e; unfold at_, before; cbn [firstn]; now rewrite app_nil_r).
  split; [exact A1|]. split; [exact A2|]. destruct (EP (length ms)) as (E1 & E2 & E3).
  split; [rewrite A3, E1, Z; reflexivity|]. split; [rewrite Z; exact E2|]. split; [rewrite Z; exact E3|]. split.
  - intros e He. specialize (A4 e He). destruct (EP e) as (F1 & F2 & F3). rewrite F1, reports_pass in A4. fold tstep in A4.
    rewrite (pass_ok St (B * Ou) stp inv U R tstep HT) in A4 by exact F3. rewrite F2 in A4.
    revert A4. apply mean_rows_eq. apply map_ext. intros [i b]. cbn [fst snd]. unfold at_, before. rewrite descend_app, passes_length. reflexivity.
  - destruct val as [[vb vo]|]; [|exact A5]. clear - A5 EP Z. revert A5. generalize (validation_epochs (c_eval_every c) (length ms)) as es. intros es A5.
    induction A5 as [|e m es l X A5 IH]; constructor; [|exact IH]. destruct (EP (S e)) as (F1 & _). change (1 + e)%nat with (S e) in X. rewrite F1 in X. rewrite Z. exact X.
Qed.
End Loop.

Section Run.
Variables P Mu B Ou O Y G OS Pr Un : Type.
Variable predict : O -> Pr.
Variable uncertainty : O -> Un.
Variable targets_of : B -> Y.
Variable diff : (P -> Q) -> P -> G.
Hypothesis diff_ext : forall f g p, (forall q, f q = g q) -> diff f p = diff g p.
Variable opt : G -> OS -> P -> P * OS.
Notation tst := (tstate P OS G (option Mu)).
Notation csetting := (csetting P Mu B Ou O Y Pr Un).

(** a run whose losses never raise from states with [inv] *)
Lemma cal_run_ok : forall (inv : option Mu -> Prop) (c : csetting) objective outputs change vobjective voutputs monitor cfg data outs val (s s' : tst) ms mvs,
  inv (mutable s) ->
  (forall p b o m, inv m -> cs_loss _ _ _ _ _ _ _ _ c p b o m (cs_aux _ _ _ _ _ _ _ _ c) = Ok {| ca_loss := objective p (b, o); ca_outputs := Some (outputs p (b, o)); ca_mutable := change |} /\ inv change) ->
  (forall p b o m, inv m -> exists mu, cs_val_loss _ _ _ _ _ _ _ _ c p b o m ["outputs"%string] = Ok {| ca_loss := vobjective p (b, o); ca_outputs := Some (voutputs p (b, o)); ca_mutable := mu |}) ->
  cal_run P Mu B Ou O Y G OS Pr Un predict uncertainty targets_of diff opt c monitor cfg data outs val s = Ok (s', ms, mvs) ->
  let bs := combine data outs in
  let update := fun (_ : nat) (x : P * OS) b => let '(p, o) := x in opt (diff (fun q => objective q b) p) o p in
  let at_ := fun e i => fst (descend update (step s) (before e i bs) (params s, opt_state s)) in
  let report := fun (on : bool) v o b => v :: match cs_metrics _ _ _ _ _ _ _ _ c with Some fs => if on then map (fun f => f (predict o) (uncertainty o) (targets_of b)) fs else [] | None => [] end in
  (length ms <= c_epochs cfg)%nat /\ (is_active (c_stop cfg) = false -> length ms = c_epochs cfg)
  /\ (params s', opt_state s') = descend update (step s) (before (length ms) 0 bs) (params s, opt_state s)
  /\ inv (mutable s') /\ step s' = (step s + length ms * length bs)%nat
  /\ (forall e, (e < length ms)%nat ->
        is_mean_of (map (fun ib => let p := at_ e (fst ib) in report (cs_training_metrics _ _ _ _ _ _ _ _ c) (objective p (snd ib)) (outputs p (snd ib)) (fst (snd ib)))
          (combine (seq 0 (length bs)) bs)) (nth e ms []))
  /\ match val with
     | None => mvs = []
     | Some (vb, vo) => Forall2 (fun e row => is_mean_of (map (fun b => let p := at_ (S e) 0%nat in report true (vobjective p b) (voutputs p b) (fst b)) (combine vb vo)) row)
          (validation_epochs (c_eval_every cfg) (length ms)) mvs
     end.
Proof.
  intros inv c objective outputs change vobjective voutputs monitor cfg data outs val s s' ms mvs I HT HV RUN bs update at_ report.
  unfold cal_run, finish in RUN.
  set (cstep := cal_step _ _ _ _ _ _ _ _ _ _ _ _ _ _ _ _) in RUN. set (cval := cal_val _ _ _ _ _ _ _ _ _ _ _ _ _ _) in RUN.
  destruct (calib_train _ _ _ _ _ _ cstep cval monitor cfg data outs val _ (Ok s)) as [[[[t1 s1] ms1] mvs1]|] eqn:E; [|discriminate].
  cbn [bind] in RUN. destruct s1 as [s2|]; [|discriminate]. cbn [bind] in RUN. injection RUN as Z1 Z2 Z3. subst s2 ms1 mvs1.
  set (Ust := fun (j : nat) (x : tst) (b : B * Ou) => apply_gradients P OS G (option Mu) opt x (diff (fun q => objective q b) (params x)) change (acc x)).
  set (R := fun (x : tst) (b : B * Ou) (j : nat) => report (cs_training_metrics _ _ _ _ _ _ _ _ c) (objective (params x) b) (outputs (params x) b) (fst b)).
  set (inv' := fun x : tst => inv (mutable x)).
  assert (H : forall x b o j, inv' x -> cstep (Ok x) b o j = (Ok (Ust j x (b, o)), R x (b, o) j) /\ step (Ust j x (b, o)) = S (step x) /\ inv' (Ust j x (b, o))).
  { intros x b o j Ix. destruct (HT (params x) b o (mutable x) Ix) as (EH & IC). split; [|split; [reflexivity|exact IC]].
    unfold cstep, cal_step. rewrite EH. unfold Ust, R, report. cbn [ca_mutable].
    rewrite (diff_ext _ (fun q => objective q (b, o))) by (intros q; destruct (HT q b o (mutable x) Ix) as (EQ & _); rewrite EQ; reflexivity).
    f_equal. unfold c_report. cbn [ca_loss ca_outputs fst]. destruct (cs_training_metrics _ _ _ _ _ _ _ _ c), (cs_metrics _ _ _ _ _ _ _ _ c); reflexivity. }
  destruct (@cal_loop_ok tst B Ou (fun x => step x) inv' Ust R cstep H cval monitor cfg data outs val _ s _ _ ms mvs I E) as (A1 & A2 & A3 & A4 & A5 & A6 & A7).
  fold bs in A3, A4, A5, A6, A7.
  assert (PJ : forall e i, (params (descend Ust (step s) (before e i bs) s), opt_state (descend Ust (step s) (before e i bs) s)) = descend update (step s) (before e i bs) (params s, opt_state s)).
  { intros e i. apply (descend_proj tst _ _ (fun _ => True) Ust update (fun x => (params x, opt_state x))); [|exact Logic.I].
    intros j x b _. split; [|exact Logic.I]. unfold Ust, update, apply_gradients. cbn [params opt_state]. destruct (opt _ (opt_state x) (params x)); reflexivity. }
  assert (PA : forall e i, params (descend Ust (step s) (before e i bs) s) = at_ e i) by (intros e i; unfold at_; rewrite <- PJ; reflexivity).
  injection A3 as A3. split; [exact A1|]. split; [exact A2|]. split; [rewrite A3; apply PJ|]. split; [rewrite A3; exact A5|]. split; [rewrite A3; exact A4|]. split.
  - intros e He. specialize (A6 e He). revert A6. apply mean_rows_eq. apply map_ext. intros [i b]. cbn [fst snd]. unfold R. rewrite PA. reflexivity.
  - destruct val as [[vb vo]|]; [|exact A7]. revert A7. generalize (validation_epochs (c_eval_every cfg) (length ms)) as es. intros es A7.
    assert (IV : forall e, inv' (descend Ust (step s) (before e 0 bs) s)).
    { intros e. apply (descend_proj tst _ _ inv' Ust (fun _ x _ => tt) (fun _ => tt)); [|exact I]. intros j x [b o] Ix. split; [reflexivity|]. apply (H x b o j Ix). }
    clear - A7 HV PA IV. induction A7 as [|e m es l X A7 IH]; [constructor|]. constructor; [|exact IH]. revert X. apply mean_rows_eq. apply map_ext. intros [b o]. cbn [fst snd].
    unfold cval, cal_val. specialize (IV (S e)). destruct (HV (params (descend Ust (step s) (before (S e) 0 bs) s)) b o _ IV) as (mu & EH). cbv beta in EH |- *. rewrite EH, PA. unfold report, c_report. cbn [ca_loss ca_outputs].
    destruct (cs_metrics _ _ _ _ _ _ _ _ c); reflexivity.
Qed.
End Run.
