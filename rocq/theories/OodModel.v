(** Model of fortuna/ood_detection: Mahalanobis and deep deterministic uncertainty (DDU)
    classifiers. Floats are real numbers or NaN ([None]); embeddings are functions of the
    coordinate; infinities are not distinguished from NaN. *)
From Coq Require Import List Arith ZArith Bool Reals.
From Verif Require Import Lib TempModel LapModel.
Import ListNotations.
Local Notation "a >>= f" := (bind a f) (at level 61, left associativity).
Open Scope R_scope.

Definition num := option R.
Definition nlift (f : R -> R -> R) (a b : num) : num := match a, b with Some x, Some y => Some (f x y) | _, _ => None end.
Definition nadd := nlift Rplus.
Definition nsub := nlift Rminus.
Definition nmul := nlift Rmult.
Definition ndiv (a b : num) : num := match a, b with Some x, Some y => if Req_EM_T y 0 then None else Some (x / y) | _, _ => None end.
Definition nsum (l : list num) : num := fold_right nadd (Some 0) l.
(** jnp.min propagates NaN *)
Definition nmin (l : list num) : num := match l with [] => None | x :: r => fold_right (nlift Rmin) x r end.
(** an embedding with its label *)
Definition point := ((nat -> R) * Z)%type.

(** ---- mahalanobis.py:14-53 ---- *)
(** line 44 *)
Definition mask (c : Z) (p : point) : num := Some (if Z.eqb (snd p) c then 1 else 0).
(** line 45 *)
Definition masked (c : Z) (p : point) (i : nat) : num := nmul (Some (fst p i)) (mask c p).
(** line 46 *)
Definition class_mean (data : list point) (c : Z) (i : nat) : num := ndiv (nsum (map (fun p => masked c p i) data)) (nsum (map (mask c) data)).
(** line 47 *)
Definition class_diff (data : list point) (c : Z) (p : point) (i : nat) : num := nmul (nsub (masked c p i) (class_mean data c i)) (mask c p).
(** lines 41, 48, 51, 52 *)
Definition joint_cov (data : list point) (class_ids : list Z) (i j : nat) : num :=
  ndiv (fold_left (fun cov c => nadd cov (nsum (map (fun p => nmul (class_diff data c p i) (class_diff data c p j)) data))) class_ids (Some 0))
       (Some (INR (length data))).
(** ---- mahalanobis.py:56-94: [pinv] is jnp.linalg.pinv, [n] the dimension ---- *)
Definition maha_dist (n : nat) (cov_inv : nat -> nat -> num) (x : nat -> R) (mean : nat -> num) : num :=
  let diff i := nsub (Some (x i)) (mean i) in
  nsum (map (fun i => nsum (map (fun j => nmul (nmul (diff i) (cov_inv i j)) (diff j)) (seq 0 n))) (seq 0 n)).
(** lines 97-181: jnp.arange(num_classes); [fitted] holds means and covariance *)
Definition arange (num_classes : nat) : list Z := map Z.of_nat (seq 0 num_classes).
Definition maha_state := option ((Z -> nat -> num) * (nat -> nat -> num)).
Definition maha_fit (num_classes : nat) (data : list point) : maha_state :=
  Some (class_mean data, joint_cov data (arange num_classes)).
Definition maha_score (pinv : (nat -> nat -> num) -> nat -> nat -> num) (n num_classes : nat) (st : maha_state) (x : nat -> R) : result num :=
  match st with
  | None => Err NotFittedError
  | Some (means, cov) => Ok (nmin (map (fun c => maha_dist n (pinv cov) x (means c)) (arange num_classes)))
  end.

(** ---- ddu.py:27-69 ---- *)
Definition members (data : list point) (c : Z) : list (nat -> R) := map fst (filter (fun p => Z.eqb (snd p) c) data).
(** jnp.mean over no rows is NaN *)
Definition ddu_mean (data : list point) (c : Z) (i : nat) : num :=
  ndiv (nsum (map (fun x => Some (x i)) (members data c))) (Some (INR (length (members data c)))).
(** lines 27-30: [1 / (n - 1)] divides Python integers *)
Definition centered_cov (rows : list (nat -> num)) : result (nat -> nat -> num) :=
  match length rows with
  | 1%nat => Err ZeroDivisionError
  | n => Ok (fun i j => nsum (map (fun x => nmul (nmul (Some (1 / (INR n - 1))) (x i)) (x j)) rows))
  end.
Definition ddu_cov (data : list point) (c : Z) : result (nat -> nat -> num) :=
  centered_cov (map (fun x i => nsub (Some (x i)) (ddu_mean data c i)) (members data c)).
Definition classwise (num_classes : nat) (data : list point) : result (list ((nat -> num) * (nat -> nat -> num))) :=
  mapM (fun c => rmap (fun cov => (ddu_mean data c, cov)) (ddu_cov data c)) (arange num_classes).
(** lines 72-105: [logpdf x mean cov] is jax.scipy.stats.multivariate_normal.logpdf *)
Section Ddu.
Variable logpdf : (nat -> num) -> (nat -> num) -> (nat -> nat -> num) -> num.
Definition add_jitter (eps : R) (cov : nat -> nat -> num) : nat -> nat -> num := fun i j => nadd (cov i j) (Some (eps * (if (i =? j)%nat then 1 else 0))).
Definition gmm_logprob (classes : list ((nat -> num) * (nat -> nat -> num))) (eps : R) (x : nat -> num) : list num :=
  map (fun mc => logpdf x (fst mc) (add_jitter eps (snd mc))) classes.
Definition is_nan (a : num) : bool := match a with None => true | _ => false end.
(** lines 99-103 *)
Definition no_nans (classes : list ((nat -> num) * (nat -> nat -> num))) (eps : R) : bool :=
  forallb (fun mc => forallb (fun a => negb (is_nan a)) (gmm_logprob classes eps (fst mc))) classes.
(** lines 90-105: the last function tried when none succeeds; no jitters: unbound *)
Fixpoint choose_jitter (ok : R -> bool) (jitters : list R) (last : option R) : result R :=
  match jitters with
  | [] => match last with Some e => Ok e | None => Err UnboundLocalErr end
  | e :: r => if ok e then Ok e else choose_jitter ok r (Some e)
  end.
Definition ddu_state := option (list ((nat -> num) * (nat -> nat -> num)) * R).
(** lines 151-168 *)
Definition ddu_fit (jitters : list R) (num_classes : nat) (data : list point) : result ddu_state :=
  classwise num_classes data >>= fun classes =>
  choose_jitter (no_nans classes) jitters None >>= fun eps => Ok (Some (classes, eps)).
(** line 191: the second positional argument of jnp.nan_to_num is [copy]; NaN becomes zero *)
Definition nan_to_num (a : num) : R := match a with Some x => x | None => 0 end.
Definition ddu_row_score (loglik : list num) : R := - ln (rsum (map exp (map nan_to_num loglik))).
(** lines 170-191 *)
Definition ddu_score (st : ddu_state) (x : nat -> R) : result R :=
  match st with
  | None => Err NotFittedError
  | Some (classes, eps) => Ok (ddu_row_score (gmm_logprob classes eps (fun i => Some (x i))))
  end.
End Ddu.
(** lines 23-24 *)
Definition jitters (tiny : R) : list R := 0 :: tiny :: map (fun k => / 10 ^ (10 - k)) (seq 0 10).
