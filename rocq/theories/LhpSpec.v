(** Vocabulary for predictions at fixed parameters. *)
From Coq Require Import List Arith ZArith QArith Bool Reals Permutation Sorting.Sorted.
From Verif Require Import Lib MetricSpec TempSpec PredSpec DrawModel DrawSpec.
Import ListNotations.
Open Scope R_scope.

(** the network, followed by the output calibrator if there is one, gives a row x the output h x *)
Definition outputs_by {X} (net : list X -> list (list R)) (manager : option (option (list (list R) -> list (list R))))
    (h : X -> list R) : Prop :=
  exists g c, (forall xs, net xs = map g xs) /\
    match manager with Some (Some f) => forall os, f os = map c os | _ => forall o, c o = o end /\
    forall x, h x = c (g x).

(** class probabilities of logits *)
Definition probabilities (o : list R) : list R := map (fun v => exp v / rtotal (map exp o)) o.
(** log-density of independent normal variables with given means and log-variances *)
Definition gauss_log_density (ms lvs ys : list R) : R :=
  rover (length ms) (fun i => normal_log_density (nth i ys 0) (nth i ms 0) (exp (nth i lvs 0))).
(** entropy of a normal variable of variance v *)
Definition normal_entropy (v : R) : R := 1 / 2 * ln (2 * PI * exp 1 * v).

(** the keys of n rows that share a key *)
Definition row_keys (label : nat -> nat) (k : key) (n : nat) : list key := map (fun j => k ++ [Cut (label n) j]) (seq 0 n).

(** v interpolates linearly between the order statistics of l around position q (n - 1) *)
Definition quantile_of (l : list R) (q : Q) (v : R) : Prop :=
  exists s k w, Permutation l s /\ StronglySorted Rle s /\ (k < length s)%nat /\ 0 <= w < 1 /\ (w = 0 \/ (S k < length s)%nat) /\
    INR k + w = Q2R q * (INR (length l) - 1) /\ v = (1 - w) * nth k s 0 + w * nth (S k) s 0.
(** number of elements at most, at least v, between two values *)
Definition at_most (v : R) (l : list R) : nat := num (fun x => if Rle_dec x v then true else false) l.
Definition at_least (v : R) (l : list R) : nat := num (fun x => if Rle_dec v x then true else false) l.
Definition within (a b : R) (l : list R) : nat :=
  num (fun x => (if Rle_dec a x then true else false) && (if Rle_dec x b then true else false)) l.

(** a draw of independent normal variables from standard normal numbers z *)
Definition noisy (ms lvs : list R) (z : nat -> R) : list R :=
  map (fun c => nth c ms 0 + sqrt (exp (nth c lvs 0)) * z c) (seq 0 (length ms)).
(** every row with its number *)
Definition numbered {A} (l : list A) : list (nat * A) := combine (seq 0 (length l)) l.
(** means and log-variances of every row *)
Definition parts_by {X} (h ms lvs : X -> list R) (rows : list X) : Prop :=
  forall x, In x rows -> h x = ms x ++ lvs x /\ length (ms x) = length (lvs x).

(** quantiles at level q of the m draws of every component of every row: those of the standard
    normal numbers [z w t j c], moved and scaled *)
Definition row_quantiles {X} (ms lvs : X -> list R) (rows : list X) (z : nat -> nat -> nat -> nat -> R) (m : nat) (q : Q) (a : list (list R)) : Prop :=
  length a = length rows /\
  forall j x, nth_error rows j = Some x -> exists r, nth_error a j = Some r /\ length r = length (ms x) /\
    forall c, (c < length (ms x))%nat -> exists v, quantile_of (map (fun t => z (length (ms x)) t j c) (seq 0 m)) q v /\
      nth c r 0 = nth c (ms x) 0 + sqrt (exp (nth c (lvs x) 0)) * v.
(** the m draws of the first component of a row *)
Definition scalar_draws (mean lv : R) (z : nat -> R) (m : nat) : list R := map (fun t => mean + sqrt (exp lv) * z t) (seq 0 m).
