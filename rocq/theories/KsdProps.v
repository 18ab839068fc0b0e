(** Property C76, continued: the kernel Stein discrepancy is a real number, the root of the
    sum of the Langevin Stein kernel of the inverse multiquadric kernel.  Proofs are in
    KsdProofs*.v. *)
From Coq Require Import List Reals.
From Verif Require Import Lib McmcModel KsdSpec KsdProofs3.
Import ListNotations.
Open Scope R_scope.

Theorem C76_langevin : forall c x y gx gy, 0 < c -> length y = length x -> length gx = length x -> length gy = length x -> langevin (imq c) x y gx gy (stein_kernel c (- / 2) x y gx gy).
Proof. exact (@stein_langevin). Qed.
Print Assumptions C76_langevin.
Theorem C76_langevin_unique : forall k x y gx gy v w, langevin k x y gx gy v -> langevin k x y gx gy w -> v = w.
Proof. exact (@langevin_unique). Qed.
Print Assumptions C76_langevin_unique.
Theorem C76_nonnegative : forall D c (l : list (list R * list R)), 0 < c -> (forall p, In p l -> length (fst p) = D /\ length (snd p) = D) ->
  0 <= pair_sum (fun p q => stein_kernel c (- / 2) (fst p) (fst q) (snd p) (snd q)) l.
Proof. exact (@stein_nonnegative). Qed.
Print Assumptions C76_nonnegative.
Theorem C76_discrepancy : forall D samples grads, samples <> [] -> Forall (fun x => length x = D) samples -> Forall (fun g => length g = D) grads ->
  exists v u, ksd None None samples grads = Ok v /\ 0 <= v /\
    (forall p q, In p (combine samples grads) -> In q (combine samples grads) -> langevin (imq 1) (fst p) (fst q) (snd p) (snd q) (u p q)) /\
    (v * INR (length samples)) * (v * INR (length samples)) = pair_sum u (combine samples grads).
Proof. exact (@ksd_discrepancy). Qed.
Print Assumptions C76_discrepancy.
Example C76_case_opposite : ksd None None [[5]; [5]] [[1]; [-1]] = Ok 1.
Proof. exact ksd_case2. Qed.
