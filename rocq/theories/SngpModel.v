(** Model of the SNGP parts: fortuna/model/utils/random_features.py,
    fortuna/model/utils/spectral_norm.py, fortuna/prob_model/posterior/sngp and the SNGP model
    manager of fortuna/model/model_manager/classification.py. Vectors and matrices are
    functions of their indices; sizes are passed along. Real arithmetic. *)
From Coq Require Import List Arith Bool String Reals.
From Verif Require Import Lib NestedModel TempModel LapModel.
Import ListNotations.
Local Notation length := List.length.
Local Notation "a >>= f" := (bind a f) (at level 61, left associativity).
Open Scope R_scope.

Definition vec := nat -> R.
Definition mat := nat -> nat -> R.

(** ---- random_features.py:176-242, one input ---- *)
(** lines 181-184 *)
Definition rff_scale (feature_scale : option R) (features : nat) : R :=
  match feature_scale with Some s => s | None => sqrt (2 / INR features) end.
(** lines 237-242 *)
Definition rff (input_dim : nat) (scale kernel_scale : R) (kernel : mat) (bias x : vec) : vec :=
  fun j => scale * cos (isum input_dim (fun i => x i * (1 / kernel_scale * kernel i j)) + bias j).

(** ---- random_features.py:277-436 ---- *)
(** lines 278-282 *)
Definition check_momentum (momentum : option R) : result unit :=
  match momentum with
  | Some m => if Rlt_dec m 0 then Err ValueError else if Rlt_dec 1 m then Err ValueError else Ok tt
  | None => Ok tt
  end.
(** lines 348-350 *)
Definition eye : mat := fun i j => if (i =? j)%nat then 1 else 0.
Definition initial_precision (ridge : R) : mat := fun i j => eye i j * ridge.
(** lines 372-388; [feats] the rows of the flattened features *)
Definition batch_precision (feats : list vec) : mat := fun i j => rsum (map (fun f => (sqrt 1 * f i) * (sqrt 1 * f j)) feats).
Definition update_precision (momentum : option R) (feats : list vec) (prec : mat) : mat :=
  fun i j =>
  match momentum with
  | None => prec i j + batch_precision feats i j
  | Some m => m * prec i j + (1 - m) * batch_precision feats i j / INR (length feats)
  end.
(** jax.lax.linalg.triangular_solve with left_side and lower, one right-hand side of size [n] *)
Fixpoint forward_subst (L : mat) (b : vec) (n : nat) : list R :=
  match n with
  | O => []
  | S m => let ys := forward_subst L b m in ys ++ [(b m - isum m (fun j => L m j * nth j ys 0)) / L m m]
  end.
(** lines 424-436; [chol] stands for jax.lax.linalg.cholesky *)
Definition half_feature (chol : mat -> mat) (n : nat) (prec : mat) (f : vec) : vec :=
  fun i => nth i (forward_subst (chol prec) f n) 0.
Definition covariance_full (chol : mat -> mat) (n : nat) (ridge : R) (prec : mat) (f g : vec) : R :=
  ridge * isum n (fun i => half_feature chol n prec f i * half_feature chol n prec g i).
Definition covariance_diag (chol : mat -> mat) (n : nat) (ridge : R) (prec : mat) (f : vec) : R :=
  ridge * isum n (fun i => half_feature chol n prec f i ^ 2).
(** lines 333-346: the new precision matrix and the covariance, if any *)
Definition covariance_layer (chol : mat -> mat) (n : nat) (ridge : R) (momentum : option R)
    (initializing training : bool) (feats : list vec) (prec : mat) : mat * option (list R) :=
  (if training && negb initializing then update_precision momentum feats prec else prec,
   if training then None
   else Some (map (covariance_diag chol n ridge (if training && negb initializing then update_precision momentum feats prec else prec)) feats)).

(** ---- sngp_callback.py:22-42 ---- *)
(** an array stored among the mutable variables, by number of dimensions; a replicated matrix
    carries one matrix per device *)
Inductive marr := Mat (n : nat) (m : mat) | Stacked (n : nat) (ms : list mat) | Other.
(** lines 25-35: no branch applies to other shapes, so the variable is unbound *)
Definition reset_value (ridge : R) (a : marr) : result marr :=
  match a with
  | Mat n _ => Ok (Mat n (initial_precision ridge))
  | Stacked n ms => Ok (Stacked n (map (fun _ => initial_precision ridge) ms))
  | Other => Err UnboundLocalErr
  end.
(** lines 37-39 *)
Definition nest {V} (p : path) (v : tree V) : tree V := fold_right (fun k t => Dict [(k, t)]) v p.
(** lines 22-42; a dictionary has no attribute ndim *)
Definition reset_covariance (key : string) (ridge : R) (mutable : tree marr) : result (tree marr) :=
  let p := find_path mutable key [] in
  nested_get mutable p >>= fun t =>
  match t with
  | Leaf a => reset_value ridge a >>= fun b => Ok (nested_update mutable [nest p (Leaf b)])
  | _ => Err AttributeError
  end.
(** sngp_posterior.py:46-55: the callbacks of the fit, as ridge penalties of reset callbacks *)
Definition add_callback {C} (callbacks : option (list C)) (c : C) : list C := match callbacks with None => [c] | Some cs => cs ++ [c] end.
(** one epoch: the callbacks run at its start, in order, then one update per batch *)
Fixpoint run_resets (key : string) (ridges : list R) (mutable : tree marr) : result (tree marr) :=
  match ridges with [] => Ok mutable | r :: rs => reset_covariance key r mutable >>= run_resets key rs end.
Definition precision_after_epoch (ridge : R) (momentum : option R) (batches : list (list vec)) : mat :=
  fold_left (fun prec feats => update_precision momentum feats prec) batches (initial_precision ridge).
(** sngp_posterior.py:63-71 *)
Definition check_spectral_state (mutable : tree marr) : result unit :=
  match find_path mutable "spectral_stats" [] with [] => Err ValueError | _ => Ok tt end.

(** ---- model_manager/classification.py:198-235, one row of logits and its variance ---- *)
Definition mean_field_logits (factor : R) (variance : option R) (logits : list R) : result (list R) :=
  if Rlt_dec factor 0 then Err ValueError
  else Ok (map (fun z => z / sqrt (1 + match variance with None => 1 | Some v => v end * factor)) logits).

(** ---- model_manager/classification.py:237-309: collections of mutable variables ----
    [extract]: the feature extractor given its collections, returning features and, when
    training, its new collections; [gp_train], [gp_eval]: the Gaussian process layer given its
    collections. [mutable = None] in evaluation mode is not covered. *)
Section Apply.
Context {V F O : Type}.
Definition is_gp (k : string) : bool := String.eqb k "sngp_random_features" || String.eqb k "sngp_laplace_covariance".
(** dict.update *)
Definition dict_update (d u : list (string * V)) : list (string * V) := fold_left (fun a kv => assoc_set (fst kv) (snd kv) a) u d.
Definition sngp_apply (extract : list (string * V) -> F * list (string * V)) (gp_train : list (string * V) -> F -> O * list (string * V))
    (gp_eval : list (string * V) -> F -> O) (train : bool) (mutable : list (string * V)) : result (O * option (list (string * V))) :=
  match mutable with
  | [] => Err UnboundLocalErr
  | _ =>
      let ex := filter (fun kv => negb (is_gp (fst kv))) mutable in
      let gp := filter (fun kv => is_gp (fst kv)) mutable in
      let '(feats, ex') := extract ex in
      if train then let '(o, gp') := gp_train gp feats in Ok (o, Some (dict_update ex' gp'))
      else Ok (gp_eval gp feats, None)
  end.
End Apply.

(** ---- spectral_norm.py:27-171, a kernel of [n_in] rows and [n_out] columns ---- *)
Definition sn_eps : R := / 10 ^ 12.
(** lines 27-28 *)
Definition l2_normalize (n : nat) (x : vec) : vec := fun i => x i * (1 / sqrt (Rmax (isum n (fun i => x i ^ 2)) sn_eps)).
(** line 133 and its transpose *)
Definition kernel_apply (n_in : nat) (w : mat) (x : vec) : vec := fun j => isum n_in (fun i => x i * w i j).
Definition kernel_transpose (n_out : nat) (w : mat) (u : vec) : vec := fun i => isum n_out (fun j => w i j * u j).
(** lines 155-161: u_hat, v_hat, u_ *)
Definition scan_body (n_in n_out : nat) (w : mat) (c : vec * vec * vec) : vec * vec * vec :=
  let '(u_hat, v_hat, u_) := c in
  let v_hat := l2_normalize n_in (kernel_transpose n_out w u_hat) in
  let u_ := kernel_apply n_in w v_hat in
  (l2_normalize n_out u_, v_hat, u_).
(** lines 150-166 *)
Definition singular_vectors (n_in n_out iteration : nat) (update initializing : bool) (w : mat) (u v : vec) : vec * vec * vec :=
  let c := (u, v, kernel_apply n_in w v) in
  if update && negb initializing then Nat.iter iteration (scan_body n_in n_out w) c else c.
(** line 168 *)
Definition sigma_estimate (n_out : nat) (c : vec * vec * vec) : R := let '(u_hat, _, u_) := c in isum n_out (fun j => u_hat j * u_ j).
(** lines 170-171 *)
Definition sn_divisor (norm_multiplier sigma : R) : R := Rmax (sigma / norm_multiplier) 1.
Definition normalized_kernel (n_in n_out iteration : nat) (norm_multiplier : R) (update initializing : bool) (w : mat) (u v : vec) : mat :=
  fun i j => w i j / sn_divisor norm_multiplier (sigma_estimate n_out (singular_vectors n_in n_out iteration update initializing w u v)).
