(** Theorems about temperature scaling calibrators as objects (C166). *)
From Coq Require Import List Arith ZArith QArith Bool Reals.
From Verif Require Import Lib QuantModel ConfRegModel ConfClassModel MetricSpec MultiSpec OneShotModel OneShotSpec TempModel TempSpec TScaleModel TScaleSpec TScaleProofs TScaleProofs2 TScaleCases.
From Verif Require Import Lit.
Import ListNotations.
Open Scope Q_scope.

Theorem C166_checks : forall ce finish, forall m o ps t th, ~ good_call ps t -> bfit ce finish m o ps t th = (Err ValueError, o).
Proof. exact (@fit_checks). Qed.
Print Assumptions C166_checks.
Example C166_case_calls : good_call (Vec [1 # 2; 1]) (ints [0; 1]%Z) /\ ~ good_call (Mat [[1]]) (ints [1]%Z).
Proof. split; [repeat split|]. intros (H & _). discriminate H. Qed.
Theorem C166_outcome : forall ce finish, forall m o l t th, y_axes t = 1%nat -> y_dtype t = Int64 -> let ys := y_values t in let r := fst (bfit ce finish m o (Vec l) t th) in
  (m = Bias -> r = Ok tt) /\ (m = Brier -> (compatible l ys -> r = Ok tt) /\ (~ compatible l ys -> r = Err ValueError)) /\
  (m = CrossEntropy -> searchable l ys -> (l <> [] /\ length l = length ys -> r = Ok tt) /\ (l = [] \/ length l <> length ys -> r = Err ValueError)) /\
  (m = F1 -> searchable l ys -> (l = [] -> r = Err ValueError) /\ (l <> [] -> th == 0 -> r = Err ZeroDivisionError) /\
     (l <> [] -> ~ th == 0 -> (length l = length ys -> r = Ok tt) /\ (length l <> length ys -> r = Err ValueError))).
Proof. exact (@fit_outcome). Qed.
Print Assumptions C166_outcome.
Theorem C166_temperatures : forall ce finish, forall o l t th, y_axes t = 1%nat -> y_dtype t = Int64 -> let ys := y_values t in
  (exists x, s_temp (snd (bfit ce finish Bias o (Vec l) t th)) = Some x /\ (l = [] \/ ys = [] -> x = NaN) /\ (l <> [] -> ys <> [] -> quotient (sum_of l * nQ (length ys)) (sum_labels ys * nQ (length l)) x)) /\
  (l <> [] -> length l = length ys -> exists x, s_temp (snd (bfit ce finish Brier o (Vec l) t th)) = Some x /\ quotient (total (map (fun p => p * p) l)) (sum2 (fun p y => p * inject_Z y) l ys) x) /\
  (forall y, (2 <= length l)%nat -> ys = [y] -> exists x, s_temp (snd (bfit ce finish Brier o (Vec l) t th)) = Some x /\ quotient (total (map (fun p => p * p) l)) (inject_Z y * sum_of l) x).
Proof. exact (@temperatures). Qed.
Print Assumptions C166_temperatures.
Theorem C166_refit : forall ce finish, forall m o ps t th, let r := bfit ce finish m o ps t th in
  match fst r with
  | Ok _ => forall o2, fst (bfit ce finish m o2 ps t th) = Ok tt /\ same_answers m (snd (bfit ce finish m o2 ps t th)) (snd r)
  | Err e => s_temp (snd r) = s_temp o /\ (forall p, bproba (snd r) p = bproba o p) /\ (m <> F1 -> snd r = o)
  end.
Proof. exact (@refit). Qed.
Print Assumptions C166_refit.
Theorem C166_probabilities : forall o ps, (axes ps <> 1%nat -> bproba o ps = Err ValueError) /\ (axes ps = 1%nat -> s_temp o = None -> bproba o ps = Err TypeError) /\
  forall l t, ps = Vec l -> s_temp o = Some t -> exists cs, bproba o ps = Ok cs /\ Forall2 (answer_is t) l cs.
Proof. exact (@probabilities). Qed.
Print Assumptions C166_probabilities.
Theorem C166_predictions : forall ce finish, forall m o ps th, used ce finish m o -> (forall e, bproba o ps = Err e -> bpredict m o ps th = Err e) /\
  forall cs, bproba o ps = Ok cs -> exists limit bs, bpredict m o ps th = Ok bs /\
    (m = F1 -> s_threshold o = Some limit) /\ (m <> F1 -> limit = match th with Some x => x | None => 1 # 2 end) /\
    Forall2 (fun c b => b = true <-> exists x, c = Some x /\ limit <= x) cs bs.
Proof. exact (@predictions). Qed.
Print Assumptions C166_predictions.
Theorem C166_no_positive : forall ce finish, forall m o l t th p, m = Bias \/ m = Brier -> y_axes t = 1%nat -> y_dtype t = Int64 -> length l = length (y_values t) -> Forall (fun y => y = 0%Z) (y_values t) -> Forall (fun x => 0 <= x) l -> In p l -> 0 < p ->
  let o' := snd (bfit ce finish m o (Vec l) t th) in s_temp o' = Some (Inf true) /\
  forall qs, exists cs, bproba o' (Vec qs) = Ok cs /\ Forall2 (fun _ c => exists x, c = Some x /\ x == 0) qs cs.
Proof. exact (@no_positive). Qed.
Print Assumptions C166_no_positive.
Theorem C166_brier : forall ce finish, forall o l t th p, y_axes t = 1%nat -> y_dtype t = Int64 -> length l = length (y_values t) -> Forall (fun x => 0 <= x) l -> binary (y_values t) -> In (p, 1%Z) (combine l (y_values t)) -> 0 < p ->
  exists o' cs, bfit ce finish Brier o (Vec l) t th = (Ok tt, o') /\ bproba o' (Vec l) = Ok cs /\ Forall (fun c => c <> None) cs /\ squared (map value cs) (y_values t) <= squared l (y_values t).
Proof. exact (@brier_improves). Qed.
Print Assumptions C166_brier.
Example C166_case_brier_hypotheses : Forall (fun x => 0 <= x) [1 # 2; 1; 1 # 2] /\ binary (y_values (ints [0; 1; 1]%Z)) /\ In (1 # 2, 1%Z) (combine [1 # 2; 1; 1 # 2] (y_values (ints [0; 1; 1]%Z))).
Proof. split; [lit|]. split; [unfold binary; cbn; lit|]. cbn. intuition. Qed.
Theorem C166_f1 : forall ce finish, forall o l t th i, y_axes t = 1%nat -> y_dtype t = Int64 -> l <> [] -> length l = length (y_values t) -> binary (y_values t) -> (0 < positives (y_values t))%nat -> 0 < th <= 1 -> improves loss_le finish -> (i < 1000)%nat ->
  exists o' tau, bfit ce finish F1 o (Vec l) t th = (Ok tt, o') /\ s_temp o' = Some (Fin tau) /\ s_threshold o' = Some th /\
    (0 < tau -> exists bs, bpredict F1 o' (Vec l) None = Ok bs /\
       f1_score (map (Qle_bool (th * grid_point (qmin_list l) (1 / th) 1000 i)) l) (y_values t) <= f1_score bs (y_values t)).
Proof. exact (@f1_best). Qed.
Print Assumptions C166_f1.
Example C166_case_f1_hypotheses : improves loss_le (fun (f : Q -> option Q) x => match f (x / 2), f x with Some a, Some b => if Qle_bool a b then x / 2 else x | _, _ => x end) /\ improves loss_le as_is /\ (0 < positives [0; 1; 1]%Z)%nat.
Proof.
  split; [|split; [intros f x; unfold as_is; destruct (f x); cbn; [apply Qle_refl|exact I]|cbn; lia]].
  intros f x. destruct (f (x / 2)) as [a|] eqn:A, (f x) as [b|] eqn:B; [destruct (Qle_bool a b) eqn:E; [rewrite A; now apply Qle_bool_iff|]|..]; cbn beta iota; rewrite ?A, ?B; cbn; try exact I; apply Qle_refl.
Qed.
Theorem C166_failed_refuted : exists ce finish o ps t, used ce finish F1 o /\ fst (bfit ce finish F1 o ps t 0) = Err ZeroDivisionError /\ bpredict F1 (snd (bfit ce finish F1 o ps t 0)) ps None <> bpredict F1 o ps None.
Proof. exact (@failed_refuted). Qed.
Print Assumptions C166_failed_refuted.
Theorem C166_int32_refuted : forall ce finish m o, exists ps t, fst (bfit ce finish m o ps t (1 # 2)) = Ok tt /\
  fst (bfit ce finish m o ps {| y_axes := y_axes t; y_dtype := Int32; y_values := y_values t |} (1 # 2)) = Err ValueError.
Proof. exact (@int32_refuted). Qed.
Print Assumptions C166_int32_refuted.
Theorem C166_lengths_refuted : forall ce finish o th, exists l t, length l <> length (y_values t) /\ fst (bfit ce finish Bias o (Vec l) t th) = Ok tt /\ tidy_num (s_temp (snd (bfit ce finish Bias o (Vec l) t th))) = Some (Fin (3 # 4)).
Proof. exact (@lengths_refuted). Qed.
Print Assumptions C166_lengths_refuted.
Example C166_case_bias : let o := snd (bfit no_ce as_is Bias fresh (Vec [1 # 2; 1; 3 # 4]) (ints [0; 1; 0]%Z) 0) in
  tidy_num (s_temp o) = Some (Fin (9 # 4)) /\ tidy_probs (bproba o (Vec [9 # 8; 1; 3])) = Ok [Some (1 # 2); Some (4 # 9); Some 1] /\ bpredict Bias o (Vec [9 # 8; 1; 3]) None = Ok [true; false; true].
Proof. exact case_bias. Qed.
Example C166_case_brier : let o := snd (bfit no_ce as_is Brier fresh (Vec [1 # 2; 1; 1 # 2]) (ints [0; 1; 1]%Z) 0) in
  tidy_num (s_temp o) = Some (Fin 1) /\ fst (bfit no_ce as_is Brier o (Vec [1 # 2; 1; 1 # 2]) (ints [0; 1]%Z) 0) = Err ValueError /\
  bproba o (Mat [[1]]) = Err ValueError /\ bproba fresh (Vec [1]) = Err TypeError.
Proof. exact case_brier. Qed.
Example C166_case_f1 : bpredict F1 f1_first (Vec [1 # 4; 1]) None = Ok [false; true] /\ tidy_num (s_temp (snd (bfit no_ce as_is Bias fresh (Vec [1 # 4; 1]) (ints [0; 0]%Z) 0))) = Some (Inf true).
Proof. exact case_f1. Qed.

Open Scope R_scope.
Theorem C166_multi_fit : forall mfinish, forall o p t, let r := mfit mfinish o p t in let n := p_width p in
  (p_axes p <> 2%nat \/ y_axes t <> 1%nat \/ y_dtype t <> Int64 -> r = (Err ValueError, o)) /\
  (p_axes p = 2%nat -> y_axes t = 1%nat -> y_dtype t = Int64 ->
     (forall y, In y (y_values t) -> ~ (- Z.of_nat n <= y < Z.of_nat n)%Z -> r = (Err IndexError, o)) /\
     forall cs, Forall2 (class_of n) (y_values t) cs -> searchable (p_rows p) cs ->
       (length (p_rows p) <> length cs -> r = (Err ValueError, o)) /\
       (length (p_rows p) = length cs -> exists tau, r = (Ok tt, Some tau) /\ (forall o2, mfit mfinish o2 p t = r) /\
          (improves Rle mfinish -> Forall (fun row => length row = n) (p_rows p) -> forall i, (i < 1000)%nat ->
             nll (map (mc_scaled tau) (p_rows p)) cs <= nll (map (mc_scaled (rgrid_point (/ 10 ^ 6) 10 1000 i)) (p_rows p)) cs))).
Proof. exact (@multi_fit). Qed.
Print Assumptions C166_multi_fit.
Theorem C166_multi_answers : forall o p, (p_axes p <> 2%nat -> mproba o p = Err ValueError /\ mpredict o p = Err ValueError) /\
  (p_axes p = 2%nat -> (o = None -> mproba o p = Err TypeError) /\
     exists cs, mpredict o p = Ok cs /\ (Forall (fun row => row <> [] /\ Forall (fun x => 0 < x) row) (p_rows p) -> forall t, o = Some t -> 0 < t ->
       exists qs, mproba o p = Ok qs /\ Forall2 (fun q c => rdistribution q /\ first_max q c) qs cs)).
Proof. exact (@multi_answers). Qed.
Print Assumptions C166_multi_answers.
Theorem C166_negative_refuted : forall mfinish o, exists p t t', Forall (fun y => (y < 0)%Z) (y_values t) /\ fst (mfit mfinish o p t) = Ok tt /\ mfit mfinish o p t = mfit mfinish o p t' /\ y_values t' = [1%Z].
Proof. exact (@negative_refuted). Qed.
Print Assumptions C166_negative_refuted.
