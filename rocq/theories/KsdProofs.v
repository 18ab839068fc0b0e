(** Positive semi-definite kernels on lists of numbers: products, powers, exponentials. *)
From Coq Require Import List Arith Reals Lra Lia.
From Verif Require Import Lib TempModel McmcModel McmcProofs4.
Import ListNotations.
Open Scope R_scope.

Definition dsum {T} (l : list T) (M : T -> T -> R) : R := rsum (map (fun p => rsum (map (M p) l)) l).

Lemma rsum_map_ext {T} (f g : T -> R) l : (forall p, In p l -> f p = g p) -> rsum (map f l) = rsum (map g l).
Proof. intros H. f_equal. now apply map_ext_in. Qed.
Lemma dsum_ext {T} (l : list T) M N : (forall p q, In p l -> In q l -> M p q = N p q) -> dsum l M = dsum l N.
Proof. intros H. apply rsum_map_ext. intros p I. apply rsum_map_ext. intros q J. now apply H. Qed.
Lemma rsum_map_plus {T} (f g : T -> R) l : rsum (map (fun p => f p + g p) l) = rsum (map f l) + rsum (map g l).
Proof. induction l as [|p l IH]; [cbn; lra|]. cbn [map]. rewrite !rsum_cons, IH. lra. Qed.
Lemma rsum_map_scale {T} c (f : T -> R) l : rsum (map (fun p => c * f p) l) = c * rsum (map f l).
Proof. induction l as [|p l IH]; [cbn; lra|]. cbn [map]. rewrite !rsum_cons, IH. lra. Qed.
Lemma rsum_map_zero {T} (l : list T) : rsum (map (fun _ => 0) l) = 0.
Proof. induction l as [|p l IH]; [reflexivity|]. cbn [map]. rewrite rsum_cons, IH. lra. Qed.
Lemma dsum_plus {T} (l : list T) M N : dsum l (fun p q => M p q + N p q) = dsum l M + dsum l N.
Proof. unfold dsum. rewrite <- rsum_map_plus. apply rsum_map_ext. intros p _. apply rsum_map_plus. Qed.
Lemma dsum_scale {T} c (l : list T) M : dsum l (fun p q => c * M p q) = c * dsum l M.
Proof. unfold dsum. rewrite <- rsum_map_scale. apply rsum_map_ext. intros p _. apply rsum_map_scale. Qed.
Lemma dsum_map {S T} (f : S -> T) l M : dsum (map f l) M = dsum l (fun p q => M (f p) (f q)).
Proof. unfold dsum. rewrite map_map. apply rsum_map_ext. intros p _. now rewrite map_map. Qed.
Lemma dsum_square {T} (l : list T) (a : T -> R) : dsum l (fun p q => a p * a q) = rsum (map a l) * rsum (map a l).
Proof. unfold dsum. rewrite <- (rsum_map_scale (rsum (map a l)) a). apply rsum_map_ext. intros p _. rewrite rsum_map_scale. lra. Qed.
(** sums over a finite index *)
Lemma dsum_sum {T} (l : list T) (M : nat -> T -> T -> R) ds : dsum l (fun p q => rsum (map (fun d => M d p q) ds)) = rsum (map (fun d => dsum l (M d)) ds).
Proof.
  induction ds as [|d ds IH]; [cbn; unfold dsum; rewrite (rsum_map_ext _ (fun _ => 0)) by (intros; apply rsum_map_zero); apply rsum_map_zero|].
  cbn [map]. rewrite rsum_cons, <- IH, <- dsum_plus. apply dsum_ext. intros. now rewrite rsum_cons.
Qed.

(** limits of finite sums *)
Lemma cv_const c : Un_cv (fun _ => c) c.
Proof. intros e E. exists 0%nat. intros n _. unfold R_dist. rewrite Rminus_diag_eq, Rabs_R0; [exact E|reflexivity]. Qed.
Lemma cv_ext f g l : (forall n, f n = g n) -> Un_cv f l -> Un_cv g l.
Proof. intros H C e E. destruct (C e E) as (N & HN). exists N. intros n L. rewrite <- H. now apply HN. Qed.
Lemma cv_rsum {T} (f : nat -> T -> R) (g : T -> R) l : (forall p, In p l -> Un_cv (fun n => f n p) (g p)) -> Un_cv (fun n => rsum (map (f n) l)) (rsum (map g l)).
Proof.
  induction l as [|p l IH]; intros H; [exact (cv_const 0)|]. cbn [map]. rewrite rsum_cons. apply (cv_ext (fun n => f n p + rsum (map (f n) l))); [intros n; now rewrite rsum_cons|].
  apply CV_plus; [apply H; now left|apply IH; intros; apply H; now right].
Qed.
Lemma cv_dsum {T} (f : nat -> T -> T -> R) g (l : list T) : (forall p q, In p l -> In q l -> Un_cv (fun n => f n p q) (g p q)) -> Un_cv (fun n => dsum l (f n)) (dsum l g).
Proof. intros H. unfold dsum. apply (cv_rsum (fun n p => rsum (map (f n p) l))). intros p I. apply (cv_rsum (fun n q => f n p q)). intros q J. now apply H. Qed.
Lemma cv_scale c f l : Un_cv f l -> Un_cv (fun n => c * f n) (c * l).
Proof. intros H. apply CV_mult; [apply cv_const|exact H]. Qed.
Lemma cv_nonneg f l : (forall n, 0 <= f n) -> Un_cv f l -> 0 <= l.
Proof.
  intros H C. destruct (Rle_lt_dec 0 l) as [L|L]; [exact L|]. destruct (C (- l) ltac:(lra)) as (N & HN). specialize (HN N (le_n N)). unfold R_dist in HN. specialize (H N). apply Rabs_def2 in HN. lra.
Qed.

(** kernels on lists of length D, for all finite sets of points and coefficients *)
Definition psd (D : nat) (k : list R -> list R -> R) : Prop :=
  forall l : list (R * list R), (forall p, In p l -> length (snd p) = D) -> 0 <= dsum l (fun p q => fst p * fst q * k (snd p) (snd q)).

Lemma rdot_nth D : forall x y, length x = D -> length y = D -> rdot x y = rsum (map (fun d => nth d x 0 * nth d y 0) (seq 0 D)).
Proof.
  induction D as [|D IH]; intros [|a x] [|b y] X Y; try discriminate; [reflexivity|]. unfold rdot. cbn [combine map fst snd]. rewrite rsum_cons. fold (rdot x y). rewrite IH by (cbn in *; lia).
  cbn [seq map nth]. rewrite rsum_cons. f_equal. rewrite <- seq_shift, map_map. reflexivity.
Qed.
Lemma rsum_map_nonneg {T} (f : T -> R) l : (forall p, In p l -> 0 <= f p) -> 0 <= rsum (map f l).
Proof. induction l as [|p l IH]; intros H; [cbn; lra|]. cbn [map]. rewrite rsum_cons. pose proof (H p (or_introl eq_refl)). assert (0 <= rsum (map f l)) by (apply IH; intros; apply H; now right). lra. Qed.
Lemma psd_one D : psd D (fun _ _ => 1).
Proof. intros l _. rewrite (dsum_ext _ _ (fun p q => fst p * fst q)) by (intros; lra). rewrite (dsum_square l fst). apply Rle_0_sqr. Qed.
Lemma psd_rdot D k : psd D k -> psd D (fun x y => k x y * rdot x y).
Proof.
  intros K l L.
  rewrite (dsum_ext _ _ (fun p q => rsum (map (fun d => (fst p * nth d (snd p) 0) * (fst q * nth d (snd q) 0) * k (snd p) (snd q)) (seq 0 D)))).
  2:{ intros p q I J. rewrite (rdot_nth D) by auto. rewrite <- Rmult_assoc, <- rsum_map_scale. apply rsum_map_ext. intros. ring. }
  rewrite dsum_sum. apply rsum_map_nonneg. intros d _.
  specialize (K (map (fun p => (fst p * nth d (snd p) 0, snd p)) l)). rewrite dsum_map in K. cbn [fst snd] in K. apply K. intros p I. apply in_map_iff in I. destruct I as (p' & <- & I). cbn. now apply L.
Qed.
Lemma psd_pow D n : psd D (fun x y => rdot x y ^ n).
Proof.
  induction n as [|n IH]; [exact (psd_one D)|]. intros l L. rewrite (dsum_ext _ _ (fun p q => fst p * fst q * (rdot (snd p) (snd q) ^ n * rdot (snd p) (snd q)))) by (intros; cbn; ring). exact (psd_rdot D _ IH l L).
Qed.
Lemma psd_plus D k h : psd D k -> psd D h -> psd D (fun x y => k x y + h x y).
Proof. intros K H l L. rewrite (dsum_ext _ _ (fun p q => fst p * fst q * k (snd p) (snd q) + fst p * fst q * h (snd p) (snd q))) by (intros; ring). rewrite dsum_plus. specialize (K l L). specialize (H l L). lra. Qed.
Lemma psd_scale D c k : 0 <= c -> psd D k -> psd D (fun x y => c * k x y).
Proof. intros C K l L. rewrite (dsum_ext _ _ (fun p q => c * (fst p * fst q * k (snd p) (snd q)))) by (intros; ring). rewrite dsum_scale. apply Rmult_le_pos; [exact C|now apply K]. Qed.
Lemma psd_limit D k h : (forall n, psd D (k n)) -> (forall x y, length x = D -> length y = D -> Un_cv (fun n => k n x y) (h x y)) -> psd D h.
Proof.
  intros K H l L. apply (cv_nonneg (fun n => dsum l (fun p q => fst p * fst q * k n (snd p) (snd q)))); [intros n; now apply K|].
  apply (cv_dsum (fun n p q => fst p * fst q * k n (snd p) (snd q))). intros p q I J. apply cv_scale. apply H; auto.
Qed.
(** partial sums of the exponential series *)
Definition exp_upto (n : nat) (v : R) : R := sum_f_R0 (fun i => / INR (fact i) * v ^ i) n.
Lemma exp_upto_cv v : Un_cv (fun n => exp_upto n v) (exp v).
Proof. unfold exp, exp_upto. destruct (exist_exp v) as (e & E). cbn [proj1_sig]. exact E. Qed.
Lemma psd_exp D t : 0 <= t -> psd D (fun x y => exp (t * rdot x y)).
Proof.
  intros T. apply (psd_limit D (fun n x y => exp_upto n (t * rdot x y))); [|intros; apply exp_upto_cv].
  intros n. assert (P : forall i, psd D (fun x y => / INR (fact i) * (t * rdot x y) ^ i)).
  { intros i l L. rewrite (dsum_ext _ _ (fun p q => fst p * fst q * ((/ INR (fact i) * t ^ i) * rdot (snd p) (snd q) ^ i))) by (intros; rewrite Rpow_mult_distr; ring).
    refine (psd_scale D (/ INR (fact i) * t ^ i) _ _ (psd_pow D i) l L). apply Rmult_le_pos; [apply Rlt_le, Rinv_0_lt_compat, INR_fact_lt_0|now apply pow_le]. }
  unfold exp_upto. induction n as [|n IH]; [exact (P 0%nat)|]. cbn [sum_f_R0]. exact (psd_plus D _ _ IH (P (Datatypes.S n))).
Qed.
(** squared distance *)
Lemma rdot_minus : forall x y, length x = length y -> rdot (rminus x y) (rminus x y) = rdot x x - 2 * rdot x y + rdot y y.
Proof.
  induction x as [|a x IH]; intros [|b y] L; try discriminate; [unfold rdot, rminus; cbn; lra|]. unfold rminus, rdot in *. cbn [combine map fst snd]. rewrite !rsum_cons, IH by (cbn in L; lia). ring.
Qed.
Lemma psd_gauss D t : 0 <= t -> psd D (fun x y => exp (- t * rdot (rminus x y) (rminus x y))).
Proof.
  intros T l L. pose proof (psd_exp D (2 * t) ltac:(lra) (map (fun p => (fst p * exp (- t * rdot (snd p) (snd p)), snd p)) l)) as H. rewrite dsum_map in H. cbn [fst snd] in H.
  rewrite (dsum_ext _ _ (fun p q => fst p * exp (- t * rdot (snd p) (snd p)) * (fst q * exp (- t * rdot (snd q) (snd q))) * exp (2 * t * rdot (snd p) (snd q)))).
  - apply H. intros p I. apply in_map_iff in I. destruct I as (p' & <- & I). cbn. now apply L.
  - intros p q I J. rewrite rdot_minus by (rewrite !L by assumption; reflexivity).
    replace (- t * (rdot (snd p) (snd p) - 2 * rdot (snd p) (snd q) + rdot (snd q) (snd q))) with (- t * rdot (snd p) (snd p) + (- t * rdot (snd q) (snd q) + 2 * t * rdot (snd p) (snd q))) by ring.
    rewrite !exp_plus. ring.
Qed.
