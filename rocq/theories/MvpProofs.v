(** Progress of BatchMVP on the pinball loss. *)
From Coq Require Import List Arith ZArith QArith Qabs Qminmax Bool Lia Lqa.
From Verif Require Import Lib QuantModel QuantSpec QuantProofs ConfRegModel ConfRegProofs ConfClassModel MultiModel MultiSpec MultiProofs MultiProofs2 MultiProofs3 MultiProofs4 MultiProofs5 MultiSpec3 MultiProofs8 MvpSpec.
Import ListNotations.
Open Scope Q_scope.

Definition pin (c x s : Q) : Q := if Qlt_le_dec x s then c * (s - x) else (1 - c) * (x - s).
Lemma pinball_cons c x xs s ss : pinball_error c (x :: xs) (s :: ss) = pin c x s + pinball_error c xs ss.
Proof. reflexivity. Qed.
Definition slope (c x s : Q) : Q := (if Qlt_le_dec x s then 0 else 1) - c.
Lemma pin_sub c x y s : 0 <= c <= 1 -> pin c x s + slope c x s * (y - x) <= pin c y s.
Proof. intros [C0 C1]. unfold pin, slope. destruct (Qlt_le_dec x s), (Qlt_le_dec y s); nra. Qed.
Lemma pin_mix c e d x s : 0 <= c <= 1 -> 0 <= e <= 1 -> pin c (x + e * d) s <= (1 - e) * pin c x s + e * pin c (x + d) s.
Proof.
  intros C E. pose proof (pin_sub c (x + e * d) x s C) as A. pose proof (pin_sub c (x + e * d) (x + d) s C) as B.
  set (g := slope c (x + e * d) s) in *. set (p := pin c (x + e * d) s) in *. 
  assert (A' : p - g * (e * d) <= pin c x s) by (eapply Qle_trans; [|exact A]; apply Qle_lteq; right; ring).
  assert (B' : p + g * ((1 - e) * d) <= pin c (x + d) s) by (eapply Qle_trans; [|exact B]; apply Qle_lteq; right; ring).
  assert (A2 : (1 - e) * (p - g * (e * d)) <= (1 - e) * pin c x s) by (rewrite !(Qmult_comm (1 - e)); apply Qmult_le_compat_r; lra).
  assert (B2 : e * (p + g * ((1 - e) * d)) <= e * pin c (x + d) s) by (rewrite !(Qmult_comm e); apply Qmult_le_compat_r; lra).
  assert (Z : p == (1 - e) * (p - g * (e * d)) + e * (p + g * ((1 - e) * d))) by ring.
  rewrite Z. lra.
Qed.
Lemma pin_proper c x y s : x == y -> pin c x s == pin c y s.
Proof. intros H. unfold pin. destruct (Qlt_le_dec x s), (Qlt_le_dec y s); rewrite ?H; try lra; try nra. Qed.
Lemma pin_clip c y s : 0 <= c <= 1 -> in_unit s -> pin c (qclip 0 1 y) s <= pin c y s.
Proof.
  intros C [S0 S1]. destruct (qclip_clipped y) as (A & B & D). unfold in_unit in A.
  destruct (Qlt_le_dec y 0) as [H|H].
  - rewrite (pin_proper c _ 0 s (B H)). unfold pin. destruct (Qlt_le_dec 0 s), (Qlt_le_dec y s); nra.
  - destruct (Qlt_le_dec 1 y) as [H1|H1].
    + rewrite (pin_proper c _ 1 s (D H1)). unfold pin. destruct (Qlt_le_dec 1 s), (Qlt_le_dec y s); nra.
    + rewrite (pin_proper c _ y s (A ltac:(lra))). lra.
Qed.

(** total loss with the marked points shifted, without clipping *)
Definition moved (t : Q) (b : bool) (x : Q) : Q := if b then x + t else x.
Definition F (c t : Q) (bs : list bool) (xs ss : list Q) : Q := pinball_error c (zip_with (moved t) bs xs) ss.
Lemma F_sub c : 0 <= c <= 1 -> forall bs xs ss t u, length bs = length xs -> length xs = length ss ->
  F c u bs xs ss + (covered_at u bs xs ss - c * n_where bs) * (t - u) <= F c t bs xs ss.
Proof.
  intros C. induction bs as [|b bs IH]; intros [|x xs] [|s ss] t u L1 L2; cbn in L1, L2; try discriminate.
  - unfold F. change (zip_with (moved u) [] []) with (@nil Q). change (zip_with (moved t) [] []) with (@nil Q). cbn [pinball_error covered_at]. change (n_where []) with 0. lra.
  - specialize (IH xs ss t u ltac:(lia) ltac:(lia)). unfold F in *. rewrite !zip_cons, !pinball_cons. cbn [covered_at]. rewrite n_where_cons.
    destruct b; cbn [moved of_bool].
    + pose proof (pin_sub c (x + u) (x + t) s C) as P. unfold slope in P.
      assert (P' : pin c (x + u) s + ((if Qlt_le_dec (x + u) s then 0 else 1) - c) * (t - u) <= pin c (x + t) s) by (eapply Qle_trans; [|exact P]; apply Qle_lteq; right; ring).
      set (k := if Qlt_le_dec (x + u) s then 0 else 1) in *.
      set (p1 := pin c (x + u) s) in *. set (p2 := pin c (x + t) s) in *. set (q1 := pinball_error c (zip_with (moved u) bs xs) ss) in *. set (q2 := pinball_error c (zip_with (moved t) bs xs) ss) in *.
      set (a := covered_at u bs xs ss) in *. set (n := n_where bs) in *. 
      assert (Z : p1 + q1 + (k + a - c * (1 + n)) * (t - u) == (p1 + (k - c) * (t - u)) + (q1 + (a - c * n) * (t - u))) by ring.
      rewrite Z. lra.
    + set (a := covered_at u bs xs ss) in *. set (n := n_where bs) in *. set (q1 := pinball_error c (zip_with (moved u) bs xs) ss) in *.
      assert (Z : pin c x s + q1 + (0 + a - c * (0 + n)) * (t - u) == pin c x s + (q1 + (a - c * n) * (t - u))) by ring.
      rewrite Z. lra.
Qed.
Lemma F_zero c : forall bs xs ss, length bs = length xs -> length xs = length ss -> F c 0 bs xs ss == pinball_error c xs ss.
Proof.
  induction bs as [|b bs IH]; intros [|x xs] [|s ss] L1 L2; cbn in L1, L2; try discriminate; [reflexivity|].
  specialize (IH xs ss ltac:(lia) ltac:(lia)). unfold F in *. rewrite zip_cons, !pinball_cons, IH. destruct b; cbn [moved]; [|reflexivity].
  rewrite (pin_proper c (x + 0) x s) by ring. reflexivity.
Qed.
Lemma F_step c e d : 0 <= c <= 1 -> 0 <= e <= 1 -> forall bs xs ss, length bs = length xs -> length xs = length ss -> Forall in_unit ss ->
  pinball_error c (zip_with (shift_where e d) bs xs) ss <= (1 - e) * pinball_error c xs ss + e * F c d bs xs ss.
Proof.
  intros C E. induction bs as [|b bs IH]; intros [|x xs] [|s ss] L1 L2 U; cbn in L1, L2; try discriminate.
  - unfold F. change (zip_with (moved d) [] []) with (@nil Q). change (zip_with (shift_where e d) [] []) with (@nil Q). cbn [pinball_error]. lra.
  - inversion_clear U as [|? ? Us U']. specialize (IH xs ss ltac:(lia) ltac:(lia) U'). unfold F in *. rewrite !zip_cons, !pinball_cons.
    destruct b; cbn [moved]; unfold shift_where at 1; cbv iota.
    + pose proof (pin_clip c (x + e * d) s C Us) as A. pose proof (pin_mix c e d x s C E) as B.
      set (p0 := pin c (qclip 0 1 (x + e * d)) s) in *. set (p1 := pin c (x + e * d) s) in *. set (p2 := pin c x s) in *. set (p3 := pin c (x + d) s) in *.
      set (q0 := pinball_error c (zip_with (shift_where e d) bs xs) ss) in *. set (q1 := pinball_error c xs ss) in *. set (q2 := pinball_error c (zip_with (moved d) bs xs) ss) in *.
      assert (Z : (1 - e) * (p2 + q1) + e * (p3 + q2) == ((1 - e) * p2 + e * p3) + ((1 - e) * q1 + e * q2)) by ring. rewrite Z. lra.
    + set (p2 := pin c x s) in *. set (q0 := pinball_error c (zip_with (shift_where e d) bs xs) ss) in *. set (q1 := pinball_error c xs ss) in *. set (q2 := pinball_error c (zip_with (moved d) bs xs) ss) in *.
      assert (Z : (1 - e) * (p2 + q1) + e * (p2 + q2) == p2 + ((1 - e) * q1 + e * q2)) by ring. rewrite Z. lra.
Qed.
Lemma covered_mono t u : t <= u -> forall bs xs ss, covered_at t bs xs ss <= covered_at u bs xs ss.
Proof.
  intros H. induction bs as [|b bs IH]; intros [|x xs] [|s ss]; cbn [covered_at]; try lra. specialize (IH xs ss).
  destruct b; [|lra]. destruct (Qlt_le_dec (x + t) s), (Qlt_le_dec (x + u) s); lra.
Qed.
Lemma covered_count t : forall bs xs ss, length bs = length xs -> length xs = length ss ->
  covered_at t bs xs ss == inject_Z (Z.of_nat (length (filter (fun p => snd p && Qle_bool (fst (fst p)) (snd (fst p))) (combine (combine ss (map (fun x => x + t) xs)) bs)))).
Proof.
  induction bs as [|b bs IH]; intros [|x xs] [|s ss] L1 L2; cbn in L1, L2; try discriminate; [reflexivity|].
  specialize (IH xs ss ltac:(lia) ltac:(lia)). cbn [covered_at map combine filter fst snd]. rewrite IH. destruct b; cbn [andb]; [|ring].
  destruct (Qlt_le_dec (x + t) s) as [H|H].
  - rewrite (proj2 (Qleb_false _ _) H). ring.
  - rewrite (proj2 (Qleb_true _ _) H). cbn [length]. rewrite Nat2Z.inj_succ. unfold Z.succ. rewrite inject_Z_plus. ring.
Qed.
Lemma err_miss c t bs xs ss : length bs = length xs -> length xs = length ss -> 0 < n_where bs ->
  mvp_prob_error c ss (map (fun x => x + t) xs) bs * (n_where bs * n_where bs) == miss_at c t bs xs ss * miss_at c t bs xs ss.
Proof.
  intros L1 L2 N. unfold mvp_prob_error. pose proof (mvp_covered ss (map (fun x => x + t) xs) bs ltac:(rewrite map_length; lia) ltac:(lia) N) as M. rewrite <- covered_count in M by assumption.
  set (p := mvp_prob ss (map (fun x => x + t) xs) bs) in *. unfold miss_at. rewrite <- M, <- Qabs_Qmult. rewrite Qabs_pos by (destruct (Qlt_le_dec (p * n_where bs - c * n_where bs) 0); nra). ring.
Qed.
Lemma err_le c t u bs xs ss : length bs = length xs -> length xs = length ss -> 0 < n_where bs ->
  (mvp_prob_error c ss (map (fun x => x + t) xs) bs <= mvp_prob_error c ss (map (fun x => x + u) xs) bs <-> miss_at c t bs xs ss <= miss_at c u bs xs ss).
Proof.
  intros L1 L2 N. pose proof (err_miss c t bs xs ss L1 L2 N) as A. pose proof (err_miss c u bs xs ss L1 L2 N) as B.
  pose proof (Qabs_nonneg (covered_at t bs xs ss - c * n_where bs)) as P1. pose proof (Qabs_nonneg (covered_at u bs xs ss - c * n_where bs)) as P2.
  fold (miss_at c t bs xs ss) in P1. fold (miss_at c u bs xs ss) in P2.
  set (e1 := mvp_prob_error c ss (map (fun x => x + t) xs) bs) in *. set (e2 := mvp_prob_error c ss (map (fun x => x + u) xs) bs) in *.
  set (m1 := miss_at c t bs xs ss) in *. set (m2 := miss_at c u bs xs ss) in *. assert (NN : 0 < n_where bs * n_where bs) by nra.
  split; intros H.
  - destruct (Qlt_le_dec m2 m1) as [K|K]; [|exact K]. exfalso. assert (m2 * m2 < m1 * m1) by nra. assert (e1 * (n_where bs * n_where bs) <= e2 * (n_where bs * n_where bs)) by (apply Qmult_le_compat_r; lra). lra.
  - destruct (Qlt_le_dec e2 e1) as [K|K]; [|exact K]. exfalso. assert (m1 * m1 <= m2 * m2) by nra. assert (e2 * (n_where bs * n_where bs) < e1 * (n_where bs * n_where bs)) by (apply Qmult_lt_compat_r; lra). lra.
Qed.
