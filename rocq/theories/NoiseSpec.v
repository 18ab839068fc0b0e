(** Specification for the keys of fits and posterior draws. *)
From Coq Require Import List Arith Bool QArith Reals.
From Verif Require Import Lib DrawModel DrawSpec McmcModel NoiseModel.
Import ListNotations.
Local Open Scope nat_scope.

(** ---- a sampler driven by a sequence of normal numbers ----
    [z t] is the noise of the t-th noisy step.  SGHMC: momentum, then parameters; [M] is the
    preconditioner's state after the step's gradient. *)
Fixpoint sghmc_driven (P : preconditioner) (decay : R) (resample : option nat) (schedule : nat -> R) (z : nat -> R)
    (t : nat) (m : R) (M : pc_state P) (gradients : list R) : list R :=
  match gradients with
  | [] => []
  | g :: r =>
      let M := pc_update P g M in
      let m := match resample with Some p => if t mod p =? 0 then 0%R else m | None => m end in
      let m := (decay * m + g * sqrt (schedule t) + pc_sqrt P (z t) M * sqrt (2 * (1 - decay)))%R in
      (pc_inv P m M * sqrt (schedule t))%R :: sghmc_driven P decay resample schedule z (S t) m M r
  end.
(** cyclical: [j] noisy steps so far; the others follow the gradient *)
Fixpoint cyclical_driven (P : preconditioner) (cycle_length : nat) (ratio : Q) (schedule : nat -> R) (z : nat -> R)
    (t j : nat) (M : pc_state P) (gradients : list R) : list R :=
  match gradients with
  | [] => []
  | g :: r =>
      let M := pc_update P g M in
      if Qle_bool ratio (inject_Z (Z.of_nat (t mod cycle_length)) / inject_Z (Z.of_nat cycle_length))
      then (pc_inv P (g * sqrt (schedule t) + pc_sqrt P (z j) M * sqrt 2) M * sqrt (schedule t))%R
           :: cyclical_driven P cycle_length ratio schedule z (S t) (S j) M r
      else (pc_inv P (schedule t * g) M)%R :: cyclical_driven P cycle_length ratio schedule z (S t) j M r
  end.

(** the key of leaf i at the t-th noisy step, of a sampler started with key k *)
Definition noise_key (label : nat -> nat) (leaves : nat) (k : key) (t i : nat) : key :=
  k ++ repeat (Cut (label 2) 1) t ++ [Cut (label 2) 0; Cut (label leaves) i].

(** ---- sessions ---- *)
(** requests that do not draw from keys the generator hands out later *)
Definition clean_request (label : nat -> nat) (r : request) : Prop :=
  match r with
  | Call c => clean label c
  | Sampler leaves _ => label leaves <> label 2
  | Direct => False
  | _ => True
  end.
(** requests that may follow each other: variances and samplers also draw from keys derived from
    the next key of the generator *)
Definition compatible (label : nat -> nat) (r r' : request) : Prop :=
  match r, r' with
  | Call (Variances _), Call (Variances _) | Call (Variances _), Sampler _ _ | Call (Variances _), FlowTraining _ true => False
  | Call (Variances _), Init n => label n <> label 2
  | Sampler leaves _, Call (Average n) | Sampler leaves _, Call (Samples n) | Sampler leaves _, Init n => label leaves <> label n
  | Sampler leaves _, Call (Entropies n) => label leaves <> label (1 + n)
  | _, _ => True
  end.
Definition adjacent {A} (R : A -> A -> Prop) (l : list A) : Prop := forall l1 a b l2, l = l1 ++ a :: b :: l2 -> R a b.
Definition proper (label : nat -> nat) (rs : list request) : Prop := Forall (clean_request label) rs /\ adjacent (compatible label) rs.
(** requests that draw something *)
Definition draws_request (r : request) : Prop :=
  match r with
  | Call c => draws_something c
  | Init n => 2 <= n
  | Sampler leaves s => 1 <= leaves /\ 1 <= s
  | FlowTraining s val => 1 <= s \/ val = true
  | Unused => False
  | Direct => True
  end.

(** ---- whole fits ---- *)
(** number of keys a model's initialisation splits its key into *)
Definition init_parts (m : manager) : nat := match m with Classifier => 3 | Regressor => 5 end.
(** the requests of some fit or calibration; for a sampler, numbers of leaves that give its noise
    keys that nothing else uses *)
Inductive fit_program (label : nat -> nat) : list request -> Prop :=
  | FitMap m available s : fit_program label (fit_map m available s)
  | FitSwag m o s rs : fit_swag m o s = Ok rs -> fit_program label rs
  | FitLaplace m o rs : fit_laplace m o = Ok rs -> fit_program label rs
  | FitEnsemble m o freeze size s : fit_program label (fit_ensemble m o freeze size s)
  | FitSampler m o freeze leaves s : label leaves <> label 2 -> (o <> Available -> label leaves <> label (init_parts m)) ->
      fit_program label (fit_sampler m o freeze leaves s)
  | FitAdvi m o s val : fit_program label (fit_advi m o s val)
  | Calibrate n val s : label n <> label 2 -> fit_program label (calibrate n val s).
(** the key occurs twice *)
Definition reused (a : key) (ks : list key) : Prop := exists l1 l2 l3, ks = l1 ++ a :: l2 ++ a :: l3.
