From Coq Require Import List Arith Bool Reals Lra Lia.
From Verif Require Import Lib TempModel TempSpec PredSpec LapModel LapSpec LapProofs2 SngpModel SngpSpec SngpProofs SngpProofs2.
Import ListNotations.
Open Scope R_scope.

Theorem rff_stationary : forall d s ks K b b' x x' j, 0 < ks -> b' j = b j + PI / 2 ->
  rff d s ks K b x j * rff d s ks K b x' j + rff d s ks K b' x j * rff d s ks K b' x' j = s ^ 2 * cos (rover d (fun i => (x i - x' i) * K i j) / ks) /\
  (forall t delta, rover d (fun i => delta i * K i j) = ks * t -> rff d s ks K b (fun i => x i + delta i) j = rff d s ks K (fun j => b j + t) x j) /\
  ((forall i, (i < d)%nat -> x i = 0) -> b j = 0 -> rff d s ks K b x j = s /\ rff d s ks K b' x j = 0).
Proof.
  intros d s ks K b b' x x' j Hk Hb.
  assert (L : forall y, isum d (fun i => y i * (1 / ks * K i j)) = rover d (fun i => y i * K i j) / ks).
  { intros y. rewrite isum_rover. unfold Rdiv at 2. rewrite (Rmult_comm _ (/ ks)). rewrite <- rover_scale_l. apply rover_ext. intros i Hi. field. lra. }
  assert (A : forall y z, rover d (fun i => (y i - z i) * K i j) = rover d (fun i => y i * K i j) - rover d (fun i => z i * K i j)).
  { intros y z. rewrite <- rover_sub. apply rover_ext. intros i _. ring. }
  unfold rff. split; [|split].
  - rewrite !L, Hb, A. set (u := rover d (fun i => x i * K i j) / ks). set (v := rover d (fun i => x' i * K i j) / ks).
    replace ((rover d (fun i => x i * K i j) - rover d (fun i => x' i * K i j)) / ks) with ((u + b j) - (v + b j)) by (unfold u, v; field; lra).
    rewrite cos_minus. replace (u + (b j + PI / 2)) with (PI / 2 + (u + b j)) by ring. replace (v + (b j + PI / 2)) with (PI / 2 + (v + b j)) by ring.
    assert (C : forall z, cos (PI / 2 + z) = - sin z) by (intros z; rewrite cos_plus, cos_PI2, sin_PI2; ring). rewrite !C. ring.
  - intros t delta Ht. rewrite !L. f_equal. f_equal. 
    replace (rover d (fun i => (x i + delta i) * K i j)) with (rover d (fun i => x i * K i j) + rover d (fun i => delta i * K i j)).
    + rewrite Ht. field. lra.
    + rewrite <- rover_add. apply rover_ext. intros i _. ring.
  - intros Hx H0. rewrite !L, Hb, H0. rewrite (rover_const0 d) by (intros i Hi; rewrite Hx by exact Hi; ring). unfold Rdiv at 1 2. rewrite !Rmult_0_l, !Rplus_0_l. rewrite cos_0, cos_PI2. split; ring.
Qed.
