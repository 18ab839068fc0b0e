(** Proofs for GpFitModel.v: the epochs of a fit. *)
From Coq Require Import List Arith ZArith QArith Bool String Reals Lia.
From Verif Require Import Lib QuantModel PredModel LikModel CalibModel TrainModel TrainSpec TrainProofs TrainProofs2 TrainProofs3 TrainProofs4 DescModel DescSpec DescProofs DescProofs2 DescProofs3 SwagProofs3 SngpModel SngpSpec GpFitModel GpFitSpec GpFitProofs.
Import ListNotations.
Open Scope list_scope.
Local Notation length := List.length.

(** something collected along the descent *)
Fixpoint along {St B A} (upd : nat -> St -> B -> St) (f : nat -> St -> B -> A) (j : nat) (bs : list B) (q : St) : list A :=
  match bs with [] => [] | b :: r => f j q b :: along upd f (S j) r (upd j q b) end.
Lemma along_map {St B A} (upd : nat -> St -> B -> St) (f : nat -> St -> B -> A) : forall bs j q,
  along upd f j bs q = map (fun ib => f (j + fst ib)%nat (descend upd j (firstn (fst ib) bs) q) (snd ib)) (combine (seq 0 (length bs)) bs).
Proof.
  induction bs as [|b r IH]; intros j q; [reflexivity|]. cbn [along length seq combine map fst snd firstn descend]. rewrite Nat.add_0_r. f_equal.
  rewrite IH, <- seq_shift. clear. generalize (seq 0 (length r)) as is0.
  assert (Z : forall is0 r2, map (fun ib => f (S j + fst ib)%nat (descend upd (S j) (firstn (fst ib) r) (upd j q b)) (snd ib)) (combine is0 r2)
    = map (fun ib => f (j + fst ib)%nat (descend upd j (firstn (fst ib) (b :: r)) q) (snd ib)) (combine (map S is0) r2)).
  { induction is0 as [|i is0 IHi]; intros [|x r2]; try reflexivity. cbn [combine map fst snd firstn descend]. rewrite IHi. f_equal. f_equal. lia. }
  intros is0. apply Z.
Qed.

Section Fit.
Variables P E X T K G OS Pr U C : Type.
Variable extract : P -> option K -> bool -> E -> X -> list vec * E.
Variable dense : P -> vec -> list R.
Variable chol : mat -> mat.
Variable n : nat.
Variable ridge : R.
Variable momentum : option R.
Variable factor : R.
Variable e0 : E.
Variable predict : list (list R) -> Pr.
Variable fold_in : nat -> K.
Variable diff : (P -> Q) -> P -> G.
Hypothesis diff_ext : forall f g p, (forall q, f q = g q) -> diff f p = diff g p.
Variable gadd : G -> G -> G.
Variable gdiv : G -> nat -> G.
Variable zeros_like : G -> G.
Variable clip_by : Q -> G -> G.
Variable opt : G -> OS -> P -> P * OS.
Variable log_prior : P -> Q.
Variable calibrator : option (bool -> option C -> list (list R) -> list (list R) * C).
Variable calib_mutable : option (option C).
Variable log_prob : list (list R) -> list T -> list Q.
Variables n_train n_val : nat.
Variable metrics : option (list (Pr -> option U -> list T -> Q)).
Variable training_metrics : bool.
Notation tst := (tstate P OS G (option (E * mat))).
Notation net := (gp_net P E X K extract dense chol n ridge momentum factor e0).
Notation conf := (map_setting P (E * mat) X T (list (list R)) K Pr U net log_prior calibrator calib_mutable log_prob n_train n_val metrics training_metrics).
Notation cal := (calibrated (list (list R)) calibrator calib_mutable).

Lemma net_train p key m x : net p key true (Some m) x
  = (map (dense p) (fst (extract p key true (fst m) x)), (snd (extract p key true (fst m) x), update_precision momentum (fst (extract p key true (fst m) x)) (snd m))).
Proof. unfold gp_net. destruct m as [e prec]. cbn [fst snd]. destruct (extract p key true e x) as [phis e']. reflexivity. Qed.
Lemma net_eval p key m x : net p key false (Some m) x
  = (map (fun vr => shrink factor (fst vr) (snd vr)) (combine (map (covariance_diag chol n ridge (snd m)) (fst (extract p key false (fst m) x))) (map (dense p) (fst (extract p key false (fst m) x)))), m).
Proof. unfold gp_net. destruct m as [e prec]. cbn [fst snd]. destruct (extract p key false e x) as [phis e']. reflexivity. Qed.

Definition objective (N : nat) (o : list (list R)) (ys : list T) (p : P) : Q :=
  (- (total_of (log_prob o ys) * (inject_Z (Z.of_nat N) / inject_Z (Z.of_nat (length ys))) + log_prior p))%Q.
Definition trained_rows (key : K) (p : P) (e : E) (x : X) : list (list R) := cal (map (dense p) (fst (extract p (Some key) true e x))).

Section Norm.
Variable clip : G -> G.
Definition upd : nat -> P * OS * E -> X * list T -> P * OS * E :=
  gradient_update diff clip opt fold_in
    (fun key p e (b : X * list T) => objective n_train (trained_rows key p e (fst b)) (snd b) p)
    (fun key p e b => snd (extract p (Some key) true e (fst b))).
Definition feats (j : nat) (q : P * OS * E) (b : X * list T) : list vec := let '(p, _, e) := q in fst (extract p (Some (fold_in j)) true e (fst b)).
Definition rep (j : nat) (q : P * OS * E) (b : X * list T) : list Q := let '(p, _, e) := q in
  let o := trained_rows (fold_in j) p e (fst b) in
  objective n_train o (snd b) p :: match metrics with Some fs => if training_metrics then map (fun f => f (predict o) None (snd b)) fs else [] | None => [] end.
Definition holds (s : tst) (q : P * OS * E) (prec : mat) (j : nat) : Prop :=
  (params s, opt_state s, mutable s) = (fst q, Some (snd q, prec)) /\ step s = j.

Variables (k : nat) (norm : Q).
Hypothesis K1 : (k <= 1)%nat.
Hypothesis clip_is : forall g, (if Qlt_bool 0 norm then clip_by norm else fun g => g) g = clip g.
Notation tstep := (fit_step P (E * mat) X T (list (list R)) K G OS Pr U predict fold_in diff gadd gdiv zeros_like clip_by opt conf k norm).
Notation sno := (fun s : result tst => match s with Ok s => step s | Err _ => 0%nat end).

Lemma step_holds s q prec j b : holds s q prec j -> exists s1,
  tstep (Ok s) b j = (Ok s1, rep j q b) /\ holds s1 (upd j q b) (update_precision momentum (feats j q b) prec) (S j).
Proof.
  intros (HS & HJ). destruct q as [[p o] e]. cbn [fst snd] in HS. injection HS as Hp Ho Hm.
  assert (KK : (1 <? k)%nat = false) by (apply Nat.ltb_ge; exact K1).
  unfold fit_step. rewrite Hp, Hm. cbn [s_loss s_n_train map_setting]. rewrite map_training.
  unfold training_step. rewrite KK. unfold fit_value_and_grad. rewrite Hp, Hm. cbn [s_loss s_n_train map_setting s_metrics s_training_metrics s_uncertainty]. rewrite map_training.
  eexists. split.
  { cbn [fst snd]. f_equal. rewrite net_train. unfold report, rep, trained_rows. cbn [an_loss an_outputs fst snd option_map]. destruct training_metrics, metrics; reflexivity. }
  cbn [fst]. split; [|cbn; now rewrite HJ]. unfold apply_gradients. cbn [params opt_state mutable an_mutable fst snd]. rewrite Hp, Ho.
  rewrite net_train. cbn [fst snd]. unfold upd, gradient_update, feats. cbn [fst snd]. rewrite <- clip_is.
  rewrite (diff_ext _ (fun q => objective n_train (trained_rows (fold_in j) q e (fst b)) (snd b) q)).
  - destruct (opt _ o p). reflexivity.
  - intros q. rewrite map_training. cbn [an_loss]. rewrite net_train. reflexivity.
Qed.
Lemma step_rep s q prec j b : holds s q prec j -> snd (tstep (Ok s) b j) = rep j q b.
Proof. intros H. destruct (step_holds s q prec j b H) as (s1 & A & _). now rewrite A. Qed.

Lemma fold_holds : forall bs s q prec j, holds s q prec j -> exists s1,
  fold_left (fun s b => fst (tstep s b (sno s))) bs (Ok s) = Ok s1
  /\ snd (one_pass sno tstep (fun s => s) bs (Ok s)) = along upd rep j bs q
  /\ holds s1 (descend upd j bs q) (fold_left (fun prec f => update_precision momentum f prec) (along upd feats j bs q) prec) (j + length bs).
Proof.
  induction bs as [|b r IH]; intros s q prec j H.
  - exists s. cbn. rewrite Nat.add_0_r. repeat split; apply H.
  - destruct (step_holds s q prec j b H) as (s1 & A & HB). destruct (IH s1 _ _ _ HB) as (s2 & A2 & R2 & H2). exists s2.
    cbn [fold_left one_pass along descend length]. rewrite (proj2 H). rewrite A. cbn [fst]. split; [exact A2|]. split.
    + destruct (one_pass _ _ _ r (Ok s1)) as [x l] eqn:EO. cbn [snd] in R2 |- *. now rewrite R2.
    + replace (j + S (length r))%nat with (S j + length r)%nat by lia. exact H2.
Qed.

Variable callbacks : option (list R).
Notation start := (fun s => fold_left (fun s r => reset_state P E G OS r s) (add_callback callbacks ridge) s).
Lemma resets_holds : forall l s q prec j, holds s q prec j -> exists s1 prec1, fold_left (fun s r => reset_state P E G OS r s) l (Ok s) = Ok s1 /\ holds s1 q prec1 j.
Proof.
  induction l as [|r l IH]; intros s q prec j H; [exists s, prec; now split|]. cbn [fold_left]. destruct H as (HS & HJ). injection HS as H1 H3.
  unfold reset_state at 2. cbn [bind]. rewrite H3. apply (IH _ q (initial_precision r) j). split; [|exact HJ]. cbn [params opt_state mutable]. now rewrite H1.
Qed.
Lemma start_holds s q prec j : holds s q prec j -> exists s1, start (Ok s) = Ok s1 /\ holds s1 q (initial_precision ridge) j.
Proof.
  intros H. assert (Z : exists l, add_callback callbacks ridge = l ++ [ridge]) by (destruct callbacks as [l|]; [exists l|exists []]; reflexivity).
  destruct Z as (l & ->). rewrite fold_left_app. destruct (resets_holds l s q prec j H) as (s1 & prec1 & -> & HS & HJ). cbn [fold_left].
  injection HS as H1 H3. unfold reset_state. cbn [bind]. rewrite H3. eexists. split; [reflexivity|]. split; [|exact HJ]. cbn [params opt_state mutable]. now rewrite H1.
Qed.
Notation epoch := (fun bs => one_epoch sno tstep start (fun s => s) (fun s => s) bs).
Definition precision_of (bs : list (X * list T)) (j : nat) (q : P * OS * E) (prec : mat) (e : nat) : mat :=
  match e with
  | O => prec
  | S e' => precision_after_epoch ridge momentum (along upd feats (j + e' * length bs) bs (descend upd j (passes e' bs) q))
  end.
Lemma passes_S {B} e (bs : list B) : passes (S e) bs = passes e bs ++ bs.
Proof. unfold passes. induction e as [|e IH]; [cbn; now rewrite app_nil_r|]. change (repeat bs (S (S e))) with (bs :: repeat bs (S e)). change (repeat bs (S e)) with (bs :: repeat bs e) at 2. cbn [List.concat]. rewrite IH. now rewrite app_assoc. Qed.
Lemma times_holds bs s q prec j : holds s q prec j -> forall e, exists s1, times e (epoch bs) (Ok s) = Ok s1
  /\ holds s1 (descend upd j (passes e bs) q) (precision_of bs j q prec e) (j + e * length bs).
Proof.
  intros H. induction e as [|e IH]; [exists s; cbn; rewrite Nat.add_0_r; now split|].
  destruct IH as (s1 & A & H1). rewrite times_right, A. unfold one_epoch. destruct (start_holds s1 _ _ _ H1) as (s2 & -> & H2).
  destruct (fold_holds bs s2 _ _ _ H2) as (s3 & A3 & _ & H3). exists s3. split; [exact A3|].
  replace (j + S e * length bs)%nat with (j + e * length bs + length bs)%nat by lia.
  rewrite passes_S, descend_app, passes_length. exact H3.
Qed.
Lemma pass_reports bs s q prec j e : holds s q prec j ->
  snd (one_pass sno tstep (fun s => s) bs (start (times e (epoch bs) (Ok s)))) = along upd rep (j + e * length bs) bs (descend upd j (passes e bs) q).
Proof.
  intros H. destruct (times_holds bs s q prec j H e) as (s1 & -> & H1). destruct (start_holds s1 _ _ _ H1) as (s2 & -> & H2).
  destruct (fold_holds bs s2 _ _ _ H2) as (s3 & _ & R3 & _). exact R3.
Qed.
End Norm.
End Fit.
