(** Property C177: the number of samples that stochastic gradient samplers can keep, and its documentation.
    Proofs are in AvailProofs.v. *)
From Coq Require Import List Arith ZArith QArith Bool.
From Verif Require Import Lib MetricSpec McmcModel AvailSpec AvailProofs.
Import ListNotations.
Local Open Scope nat_scope.

(** C177: available samples *)
Theorem C177_cyclical : forall n thin L ratio n_epochs n_steps, (0 < thin)%nat -> (0 < L)%nat ->
  make_callback (do_sample_cyclical n thin L ratio) n n_epochs n_steps =
    if (n <=? available_cyclical L thin ratio (n_epochs * n_steps))%nat then Ok (do_sample_cyclical n thin L ratio) else Err ValueError.
Proof. exact (@cyclical_available). Qed.
Print Assumptions C177_cyclical.
Example C177_case_cyclical : make_callback (do_sample_cyclical 5 2 6 (1 # 3)) 5 3 5 = Ok (do_sample_cyclical 5 2 6 (1 # 3)) /\
  make_callback (do_sample_cyclical 6 2 6 (1 # 3)) 6 3 5 = Err ValueError /\ available_cyclical 6 2 (1 # 3) 15 = 5.
Proof. repeat split. Qed.
Theorem C177_intended : forall thin L ratio c a b, (0 < thin)%nat -> (0 < L)%nat -> L = (a * thin)%nat -> (ratio * nQ L == nQ (b * thin))%Q -> (b <= a)%nat ->
  Z.of_nat (available_cyclical L thin ratio (c * L)) = intended_cyclical (c * L) L thin ratio.
Proof. exact (@cyclical_intended). Qed.
Print Assumptions C177_intended.
Example C177_case_intended : 6 = 3 * 2 /\ ((1 # 3) * nQ 6 == nQ (1 * 2))%Q /\ available_cyclical 6 2 (1 # 3) (4 * 6) = 8 /\ intended_cyclical (4 * 6) 6 2 (1 # 3) = 8%Z.
Proof. repeat split. Qed.
Theorem C177_bounds : forall thin L ratio c k, (0 < thin)%nat -> (0 < L)%nat -> (k <= L)%nat -> (ratio * nQ L == nQ k)%Q ->
  let available := available_cyclical L thin ratio (c * L) in
  (c * ((L - k) / thin) <= available /\ thin * available <= c * (L - k + (thin - 1)))%nat /\
  (Z.abs (Z.of_nat available - intended_cyclical (c * L) L thin ratio) <= Z.of_nat c)%Z.
Proof. exact (@cyclical_bounds). Qed.
Print Assumptions C177_bounds.
Example C177_case_bounds : ((1 # 5) * nQ 10 == nQ 2)%Q /\ available_cyclical 10 3 (1 # 5) (4 * 10) = 12 /\ intended_cyclical (4 * 10) 10 3 (1 # 5) = 10%Z.
Proof. repeat split. Qed.
Theorem C177_long_thinning_refuted : forall n thin L ratio n_epochs n_steps, (0 < n)%nat -> (0 < L)%nat -> (L <= thin)%nat -> (0 < ratio)%Q ->
  make_callback (do_sample_cyclical n thin L ratio) n n_epochs n_steps = Err ValueError.
Proof. exact (@long_thinning). Qed.
Print Assumptions C177_long_thinning_refuted.
Example C177_case_long_thinning : intended_cyclical (20 * 5) 5 7 (1 # 4) = 10%Z /\ make_callback (do_sample_cyclical 1 7 5 (1 # 4)) 1 20 5 = Err ValueError.
Proof. repeat split. Qed.
Theorem C177_intended_refuted :
  (exists n thin L ratio c, (Z.of_nat n <= intended_cyclical (c * L) L thin ratio)%Z /\ (0 < thin < L)%nat /\ (0 <= ratio < 1)%Q /\
     make_callback (do_sample_cyclical n thin L ratio) n c L = Err ValueError) /\
  (exists n thin L ratio c, (intended_cyclical (c * L) L thin ratio < Z.of_nat n)%Z /\ (0 < thin < L)%nat /\ (0 <= ratio < 1)%Q /\
     make_callback (do_sample_cyclical n thin L ratio) n c L = Ok (do_sample_cyclical n thin L ratio)).
Proof. exact cyclical_intended_refuted. Qed.
Print Assumptions C177_intended_refuted.
Theorem C177_documented_cyclical_refuted : (forall c L thin ratio, (0 < L)%nat -> documented_cyclical (c * L) L thin ratio = 0%Z) /\
  exists n thin L ratio c, (0 < thin)%nat /\ (0 < L)%nat /\ (0 < n)%nat /\
    make_callback (do_sample_cyclical n thin L ratio) n c L = Ok (do_sample_cyclical n thin L ratio).
Proof. exact cyclical_literal_refuted. Qed.
Print Assumptions C177_documented_cyclical_refuted.
Theorem C177_documented_sghmc_refuted : exists n thin burnin E T, (0 < thin)%nat /\ (burnin <= E * T)%nat /\ (documented_sghmc (E * T) burnin thin < n)%nat /\
  make_callback (do_sample_sghmc n thin burnin) n E T = Ok (do_sample_sghmc n thin burnin).
Proof. exact sghmc_literal_refuted. Qed.
Print Assumptions C177_documented_sghmc_refuted.
