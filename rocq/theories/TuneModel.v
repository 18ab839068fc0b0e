(** Model of the draws of the Laplace posterior and of the tuning of its prior log-variance:
    fortuna/prob_model/posterior/laplace/laplace_posterior.py:223-226, 290-326, 328-384 and
    423-516.

    LapModel.v models the choice among candidates with given scores; here the scores are
    computed.  Simplifications: parameters are one flat vector (FlatModel.v models their tree);
    [noise k j] is the number that random key [k] gives coordinate [j]; NaN is [None], and a
    NaN parameter makes every log-likelihood NaN. *)
From Coq Require Import List Arith Bool Reals.
From Verif Require Import Lib TempModel LoaderModel LapModel DrawModel.
Import ListNotations.
Local Open Scope R_scope.
Local Open Scope nat_scope.

(** the log-variance of an isotropic or of a diagonal prior (prior/gaussian.py) *)
Inductive log_var := Scalar (v : R) | Vector (vs : list R).

(** flax.training.common_utils.shard: reshape((d, -1) + shape[1:]); the part of every device.  A
    scalar gives arrays of length one, which broadcast as scalars do *)
Definition shard (d : nat) (c : log_var) : result (list log_var) :=
  match c with
  | Scalar v => if d =? 1 then Ok [Scalar v] else Err TypeError
  | Vector vs => rmap (map Vector) (reshape_devices d vs)
  end.
(** c.reshape() of line 515: only arrays of one entry have shape () *)
Definition to_scalar (c : log_var) : result R :=
  match c with Scalar v | Vector [v] => Ok v | Vector _ => Err TypeError end.
(** jnp.linspace *)
Definition rlinspace (lo hi : R) (n : nat) : list R :=
  map (fun i => (lo + INR i * ((hi - lo) / INR (n - 1)))%R) (seq 0 n).
Fixpoint all_some {A} (l : list (option A)) : option (list A) :=
  match l with
  | [] => Some []
  | Some a :: r => match all_some r with Some s => Some (a :: s) | None => None end
  | None :: _ => None
  end.

Section Tune.
Variable label : nat -> nat.
Context {X : Type}.
Variable noise : key -> nat -> R.
Variable ll : list R -> X -> R.               (* log-likelihood of a data point at given parameters *)
Variables mean hess : list R.                 (* of the state *)

(** lines 223-226 *)
Definition compute_std (prior_log_var : log_var) : result (list (option R)) :=
  match prior_log_var with
  | Scalar v => Ok (map (laplace_std v) hess)
  | Vector vs =>
      if length vs =? length hess then Ok (map (fun vh => laplace_std (fst vh) (snd vh)) (combine vs hess))
      else match vs with [v] => Ok (map (laplace_std v) hess) | _ => Err TypeError end
  end.
(** lines 328-384: [stored] is the log-variance of the state, [given] the keyword argument *)
Definition draw (stored : log_var) (given : option log_var) (k : key) : result (option (list R)) :=
  rmap (fun std => all_some (map (fun jms => let '(j, (m, s)) := jms in option_map (fun s => (m + s * noise k j)%R) s)
                              (combine (seq 0 (length mean)) (combine mean std))))
       (compute_std (match given with Some v => v | None => stored end)).
(** lines 423-451 with a key *)
Definition batched_log_prob (stored : log_var) (rows : list X) (prior_log_var : log_var) (n : nat) (rng : key) : result (list (option R)) :=
  rmap (fun thetas => map (fun x => option_map mc_log_prob (all_some (map (option_map (fun theta => ll theta x)) thetas))) rows)
       (mapM (draw stored (Some prior_log_var)) (split label rng n)).

Section Objective.
Variables (zero : key) (stored : log_var) (loader : list (list X)) (n d : nat).
(** one batch: pmap over the devices, line 505 *)
Definition batch_score (cs : list log_var) (batch : list X) : result (list (option R)) :=
  bind (reshape_devices d batch) (fun shards =>
    rmap unshard (mapM (fun srk => let '(rows, (c, k)) := srk in batched_log_prob stored rows c n k)
                       (combine shards (combine cs (split label zero d))))).
(** lines 500-510 *)
Definition neg_log_prob (cs : list log_var) : result (option R) :=
  bind (mapM (batch_score cs) loader) (fun bs =>
    rmap (fun l => option_map (fun s => (- rsum s)%R) (all_some l)) (np_concatenate bs)).
(** line 511; comparisons with NaN are false *)
Definition better (s b : option R) : bool :=
  match s, b with Some x, Some y => if Rlt_dec x y then true else false | _, _ => false end.
Fixpoint search (best : option (log_var * option R)) (cs : list (log_var * list log_var)) : result (option (log_var * option R)) :=
  match cs with
  | [] => Ok best
  | (c, sharded) :: r =>
      bind (neg_log_prob sharded) (fun s =>
        search (match best with None => Some (c, s) | Some (_, b) => if better s b then Some (c, s) else best end) r)
  end.
End Objective.

(** lines 482-516 for mode "cv"; [zero] is PRNGKey(0) *)
Definition tune (zero : key) (prior : log_var) (loader : list (list X)) (n : nat) (lo hi : R) (grid_size : nat) (distribute : bool) (d : nat) : result R :=
  let candidates := map Scalar (rlinspace lo hi grid_size) ++ [prior] in
  if distribute then
    bind (mapM (fun c => rmap (pair c) (shard d c)) candidates) (fun cs =>
    bind (search zero prior loader n d None cs) (fun best =>
      match best with Some (c, _) => to_scalar c | None => Err TypeError end))
  else match loader with [] => Err ValueError | _ => Err UnboundLocalErr end.

(** lines 290-326, once the curvature is known: the log-variance of the state that is stored, and
    whether the fit ends well; [devices] is None for the configuration -1 *)
Definition fit_end (zero : key) (prior : log_var) (val : option (list (list X))) (tuning : bool) (devices : option nat) (d : nat) : log_var * result unit :=
  match val, tuning with
  | Some loader, true =>
      match tune zero prior loader 5 (-3) 3 20 (match devices with None => true | Some _ => false end) d with
      | Ok v => (Scalar v, Ok tt)
      | Err e => (prior, Err e)
      end
  | _, _ => (prior, Ok tt)
  end.
End Tune.
