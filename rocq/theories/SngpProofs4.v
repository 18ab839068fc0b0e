From Coq Require Import List Arith Bool Reals Lra Lia.
From Verif Require Import Lib TempModel TempSpec PredSpec PredProofs4 LapModel LapSpec LapProofs2 SngpModel SngpSpec SngpProofs.
Import ListNotations.
Open Scope R_scope.

Lemma sn_eps_pos : 0 < sn_eps. Proof. unfold sn_eps. apply Rinv_0_lt_compat, pow_lt. lra. Qed.
Lemma sq_inner n x : isum n (fun i => x i ^ 2) = inner n x x. Proof. apply rover_ext; intros; ring. Qed.
Lemma inner_ext n x x' y y' : (forall i, (i < n)%nat -> x i = x' i) -> (forall i, (i < n)%nat -> y i = y' i) -> inner n x y = inner n x' y'.
Proof. intros H H'. apply rover_ext. intros i Hi. now rewrite H, H'. Qed.
Definition dd n x := sqrt (Rmax (inner n x x) sn_eps).
Lemma dd_pos n x : 0 < dd n x.
Proof. apply sqrt_lt_R0. apply Rlt_le_trans with sn_eps; [apply sn_eps_pos | apply Rmax_r]. Qed.
Lemma dd_sq n x : dd n x * dd n x = Rmax (inner n x x) sn_eps.
Proof. apply sqrt_sqrt. apply Rle_trans with sn_eps; [left; apply sn_eps_pos | apply Rmax_r]. Qed.
Lemma dd_norm n x : norm n x <= dd n x. Proof. apply sqrt_le_1_alt, Rmax_l. Qed.
Lemma dd_big n x : sn_eps <= inner n x x -> dd n x = norm n x. Proof. intros H. unfold dd. now rewrite Rmax_left. Qed.
Lemma normalize_eq n x i : l2_normalize n x i = / dd n x * x i.
Proof. unfold l2_normalize. rewrite sq_inner. fold (dd n x). unfold Rdiv. ring. Qed.
Lemma normalize_inner n x y : inner n (l2_normalize n x) y = / dd n x * inner n x y.
Proof. rewrite <- inner_scale_l. apply inner_ext; [intros; apply normalize_eq | reflexivity]. Qed.
Lemma normalize_le n x : norm n (l2_normalize n x) <= 1.
Proof.
  unfold norm. rewrite <- sqrt_1. apply sqrt_le_1_alt. rewrite normalize_inner, inner_comm, normalize_inner.
  rewrite <- Rmult_assoc. pose proof (dd_pos n x). rewrite <- Rinv_mult, dd_sq.
  assert (0 < Rmax (inner n x x) sn_eps) by (rewrite <- dd_sq; nra).
  apply Rmult_le_reg_l with (Rmax (inner n x x) sn_eps); [assumption|]. rewrite <- Rmult_assoc, Rinv_r by lra. rewrite Rmult_1_l, Rmult_1_r. apply Rmax_l.
Qed.
Lemma normalize_self n x : inner n (l2_normalize n x) x <= norm n x.
Proof. pose proof (cauchy_norm n (l2_normalize n x) x). pose proof (normalize_le n x). pose proof (norm_nonneg n x). nra. Qed.
Lemma normalize_self_eq n x : sn_eps <= inner n x x -> inner n (l2_normalize n x) x = norm n x.
Proof.
  intros H. rewrite normalize_inner, (dd_big n x H), <- norm_sq. assert (0 < norm n x) by (rewrite <- (dd_big n x H); apply dd_pos). field. lra.
Qed.
Lemma adjoint n_in n_out w v u : inner n_out (kernel_apply n_in w v) u = inner n_in v (kernel_transpose n_out w u).
Proof.
  unfold inner, kernel_apply, kernel_transpose. change isum with rover.
  rewrite (rover_ext n_out _ (fun j => rover n_in (fun i => v i * w i j * u j))) by (intros; rewrite <- rover_scale; reflexivity).
  rewrite rover_swap. apply rover_ext; intros i Hi. rewrite <- rover_scale_l. apply rover_ext; intros; ring.
Qed.
Lemma kernel_norm n_in n_out w s x : gain_at_most n_in n_out w s -> norm n_out (kernel_apply n_in w x) <= s * norm n_in x.
Proof. intros H. exact (H x). Qed.
Lemma norm_scale n c x : 0 <= c -> norm n (fun i => c * x i) = c * norm n x.
Proof.
  intros C. unfold norm. rewrite inner_scale_l, inner_scale_r, <- Rmult_assoc, sqrt_mult by (try apply inner_nonneg; nra).
  rewrite sqrt_square by exact C. reflexivity.
Qed.
Lemma norm_ext n x y : (forall i, (i < n)%nat -> x i = y i) -> norm n x = norm n y.
Proof. intros H. unfold norm. f_equal. now apply inner_ext. Qed.

(** ---- the divisor ---- *)
Lemma divisor_ge m s : 1 <= sn_divisor m s. Proof. apply Rmax_r. Qed.
Section Kernel.
Variables n_in n_out iteration : nat.
Variable w : mat.
Lemma apply_normalized m upd ini u v x j : kernel_apply n_in (normalized_kernel n_in n_out iteration m upd ini w u v) x j =
  / sn_divisor m (sigma_estimate n_out (singular_vectors n_in n_out iteration upd ini w u v)) * kernel_apply n_in w x j.
Proof. unfold kernel_apply, normalized_kernel. change isum with rover. rewrite <- rover_scale_l. apply rover_ext; intros; unfold Rdiv; ring. Qed.
Lemma norm_normalized m upd ini u v x : norm n_out (kernel_apply n_in (normalized_kernel n_in n_out iteration m upd ini w u v) x) =
  / sn_divisor m (sigma_estimate n_out (singular_vectors n_in n_out iteration upd ini w u v)) * norm n_out (kernel_apply n_in w x).
Proof.
  rewrite (norm_ext _ _ _ (fun j _ => apply_normalized m upd ini u v x j)). apply norm_scale. left. apply Rinv_0_lt_compat.
  match goal with |- 0 < sn_divisor ?a ?b => pose proof (divisor_ge a b) end. lra.
Qed.
End Kernel.
Theorem normalized_never_grows : forall n_in n_out iteration m upd ini w u v x,
  norm n_out (fun j => rover n_in (fun i => x i * normalized_kernel n_in n_out iteration m upd ini w u v i j)) <= norm n_out (fun j => rover n_in (fun i => x i * w i j)).
Proof.
  intros. pose proof (norm_normalized n_in n_out iteration w m upd ini u v x) as H. unfold kernel_apply in H. change isum with rover in H. rewrite H.
  match goal with |- / ?d * ?y <= _ => assert (1 <= d) by apply divisor_ge; assert (0 <= y) by apply norm_nonneg; assert (/ d <= 1) by (rewrite <- Rinv_1; apply Rinv_le_contravar; lra); assert (0 < / d) by (apply Rinv_0_lt_compat; lra) end. nra.
Qed.
Theorem normalized_identity : forall n_in n_out iteration m upd ini w u v i j, 0 < m ->
  sigma_estimate n_out (singular_vectors n_in n_out iteration upd ini w u v) <= m -> normalized_kernel n_in n_out iteration m upd ini w u v i j = w i j.
Proof.
  intros n_in n_out it m upd ini w u v i j M H. unfold normalized_kernel, sn_divisor. rewrite Rmax_right; [unfold Rdiv; rewrite Rinv_1; ring|].
  apply Rmult_le_reg_r with m; [exact M|]. unfold Rdiv. rewrite Rmult_assoc, Rinv_l by lra. lra.
Qed.
Lemma div_bound m sigma y : 0 < m -> y <= sigma -> 0 <= y -> / sn_divisor m sigma * y <= m.
Proof.
  intros M H Y. pose proof (divisor_ge m sigma) as D. assert (E : sigma / m <= sn_divisor m sigma) by apply Rmax_l.
  apply Rmult_le_reg_l with (sn_divisor m sigma); [lra|]. rewrite <- Rmult_assoc, Rinv_r by lra.
  assert (sigma <= sn_divisor m sigma * m); [|lra]. apply Rmult_le_compat_r with (r := m) in E; [|lra]. unfold Rdiv in E. rewrite Rmult_assoc, Rinv_l in E by lra. lra.
Qed.
Theorem normalized_bound : forall n_in n_out iteration m upd ini w u v s, 0 < m -> 0 <= s -> gain_at_most n_in n_out w s ->
  s <= sigma_estimate n_out (singular_vectors n_in n_out iteration upd ini w u v) ->
  gain_at_most n_in n_out (normalized_kernel n_in n_out iteration m upd ini w u v) m.
Proof.
  intros n_in n_out it m upd ini w u v s M S0 G S x. pose proof (norm_normalized n_in n_out it w m upd ini u v x) as H. unfold kernel_apply in H. change isum with rover in H. rewrite H.
  pose proof (G x) as Gx. set (sg := sigma_estimate n_out (singular_vectors n_in n_out it upd ini w u v)) in *.
  pose proof (div_bound m sg s M S S0) as B. pose proof (divisor_ge m sg) as D. assert (0 < / sn_divisor m sg) by (apply Rinv_0_lt_compat; lra).
  apply Rle_trans with (/ sn_divisor m sg * (s * norm n_in x)); [apply Rmult_le_compat_l; lra|].
  rewrite <- Rmult_assoc. apply Rmult_le_compat_r; [apply norm_nonneg | exact B].
Qed.

(** ---- power iterations ---- *)
Section Power.
Variables n_in n_out : nat.
Variable w : mat.
(** states reached by at least one iteration *)
Definition reached (c : vec * vec * vec) : Prop :=
  let '(u, v, u_) := c in norm n_in v <= 1 /\ u_ = kernel_apply n_in w v /\ u = l2_normalize n_out u_.
Lemma body_reached c : reached (scan_body n_in n_out w c).
Proof. destruct c as [[u v] u_]. cbn. split; [apply normalize_le | split; reflexivity]. Qed.
Lemma iter_reached k c : (1 <= k)%nat -> reached (Nat.iter k (scan_body n_in n_out w) c).
Proof. intros H. destruct k; [lia|]. cbn [Nat.iter]. apply body_reached. Qed.
Lemma reached_le c : reached c -> forall s, 0 <= s -> gain_at_most n_in n_out w s -> sigma_estimate n_out c <= s.
Proof.
  destruct c as [[u v] u_]. intros (Hv & -> & ->) s S0 G. cbn. change (isum n_out (fun j => l2_normalize n_out (kernel_apply n_in w v) j * kernel_apply n_in w v j)) with (inner n_out (l2_normalize n_out (kernel_apply n_in w v)) (kernel_apply n_in w v)).
  pose proof (normalize_self n_out (kernel_apply n_in w v)). pose proof (kernel_norm n_in n_out w s v G). assert (s * norm n_in v <= s * 1) by (apply Rmult_le_compat_l; lra). lra.
Qed.
Lemma reached_norm c : reached c -> sn_eps <= sigma_estimate n_out c * sigma_estimate n_out c -> let '(_, v, u_) := c in sigma_estimate n_out c = norm n_out u_ /\ sn_eps <= inner n_out u_ u_.
Proof.
  destruct c as [[u v] u_]. intros (Hv & E & ->) H. cbn in *. change (isum n_out (fun j => l2_normalize n_out u_ j * u_ j)) with (inner n_out (l2_normalize n_out u_) u_) in *.
  destruct (Rle_dec sn_eps (inner n_out u_ u_)) as [B|B]; [split; [now apply normalize_self_eq | exact B]|]. exfalso.
  assert (B' : inner n_out u_ u_ < sn_eps) by lra. rewrite normalize_inner in H. pose proof (dd_sq n_out u_) as D. rewrite Rmax_right in D by lra.
  pose proof (dd_pos n_out u_) as P. pose proof (inner_nonneg n_out u_) as I. pose proof sn_eps_pos as EP.
  replace (/ dd n_out u_ * inner n_out u_ u_ * (/ dd n_out u_ * inner n_out u_ u_)) with (inner n_out u_ u_ * inner n_out u_ u_ / (dd n_out u_ * dd n_out u_)) in H by (field; lra).
  rewrite D in H. assert (inner n_out u_ u_ * inner n_out u_ u_ / sn_eps < sn_eps); [|lra].
  apply Rmult_lt_reg_r with sn_eps; [lra|]. unfold Rdiv. rewrite Rmult_assoc, Rinv_l by lra. nra.
Qed.
Lemma body_increases c : reached c -> 0 <= sigma_estimate n_out c -> sn_eps <= sigma_estimate n_out c * sigma_estimate n_out c ->
  sigma_estimate n_out c <= sigma_estimate n_out (scan_body n_in n_out w c).
Proof.
  intros Rc S0 H. pose proof (reached_norm c Rc H) as N. destruct c as [[u v] u_]. destruct Rc as (Hv & E & Eu). destruct N as [Ns Ne].
  rewrite Ns in *. cbn [scan_body sigma_estimate].
  set (v_ := kernel_transpose n_out w u). set (v' := l2_normalize n_in v_). set (u1 := kernel_apply n_in w v').
  change (isum n_out (fun j => l2_normalize n_out u1 j * u1 j)) with (inner n_out (l2_normalize n_out u1) u1).
  (* |v_| >= <v, v_> = <u_, u> = |u_| *)
  assert (A1 : norm n_out u_ <= norm n_in v_).
  { pose proof (cauchy_norm n_in v v_) as C. unfold v_ in C at 1. rewrite <- adjoint, <- E, inner_comm, Eu, normalize_self_eq in C by exact Ne.
    pose proof (norm_nonneg n_in v_). nra. }
  assert (Vb : sn_eps <= inner n_in v_ v_).
  { rewrite <- norm_sq. rewrite <- norm_sq in Ne. pose proof (norm_nonneg n_out u_). nra. }
  (* |W v'| >= <W v', u> = <v', v_> = |v_| *)
  assert (Un : norm n_out u <= 1) by (rewrite Eu; apply normalize_le).
  assert (A2 : norm n_in v_ <= norm n_out u1).
  { pose proof (cauchy_norm n_out u1 u) as C. unfold u1 in C at 1. rewrite adjoint in C. fold v_ in C. unfold v' in C. rewrite normalize_self_eq in C by exact Vb.
    pose proof (norm_nonneg n_out u1). fold v' in C. nra. }
  rewrite normalize_self_eq; [lra|]. rewrite <- norm_sq. rewrite <- norm_sq in Ne. pose proof (norm_nonneg n_out u_). nra.
Qed.
Lemma reached_nonneg c : reached c -> 0 <= sigma_estimate n_out c.
Proof.
  destruct c as [[u v] u_]. intros (_ & _ & ->). cbn. change (isum n_out (fun j => l2_normalize n_out u_ j * u_ j)) with (inner n_out (l2_normalize n_out u_) u_).
  rewrite normalize_inner. apply Rmult_le_pos; [left; apply Rinv_0_lt_compat, dd_pos | apply inner_nonneg].
Qed.
End Power.
Theorem estimate_below_gain : forall n_in n_out iteration w u v s, (1 <= iteration)%nat -> 0 <= s -> gain_at_most n_in n_out w s ->
  0 <= sigma_estimate n_out (singular_vectors n_in n_out iteration true false w u v) <= s.
Proof.
  intros. unfold singular_vectors. cbn [andb negb]. split; [eapply reached_nonneg; now apply iter_reached | apply (reached_le n_in n_out w); auto; now apply iter_reached].
Qed.
Theorem estimate_increases : forall n_in n_out k k' w u v, (1 <= k <= k')%nat ->
  / 10 ^ 12 <= sigma_estimate n_out (singular_vectors n_in n_out k true false w u v) ^ 2 ->
  sigma_estimate n_out (singular_vectors n_in n_out k true false w u v) <= sigma_estimate n_out (singular_vectors n_in n_out k' true false w u v).
Proof.
  intros n_in n_out k k' w u v [K KK] H. unfold singular_vectors in *. cbn [andb negb] in *. set (c := (u, v, kernel_apply n_in w v)) in *.
  induction KK as [|k' KK IH]; [lra|]. cbn [Nat.iter].
  assert (Rc : reached n_in n_out w (Nat.iter k' (scan_body n_in n_out w) c)) by (apply iter_reached; lia).
  pose proof (body_increases n_in n_out w _ Rc (reached_nonneg n_in n_out w _ Rc)) as B.
  assert (Rk : reached n_in n_out w (Nat.iter k (scan_body n_in n_out w) c)) by (apply iter_reached; lia). pose proof (reached_nonneg n_in n_out w _ Rk) as P.
  apply Rle_trans with (1 := IH). apply B. fold sn_eps in H. apply Rle_trans with (1 := H).
  match goal with |- ?a ^ 2 <= ?b * ?b => replace (a ^ 2) with (a * a) by ring; apply Rmult_le_compat; assumption end.
Qed.
Theorem tracked_direction : forall n_in n_out k m w u v, (1 <= k)%nat -> / 10 ^ 6 <= m ->
  norm n_out (fun j => rover n_in (fun i => snd (fst (singular_vectors n_in n_out k true false w u v)) i * normalized_kernel n_in n_out k m true false w u v i j)) <= m.
Proof.
  intros n_in n_out k m w u v K M. set (c := singular_vectors n_in n_out k true false w u v).
  pose proof (norm_normalized n_in n_out k w m true false u v (snd (fst c))) as H. unfold kernel_apply in H. change isum with rover in H. rewrite H.
  assert (Rc : reached n_in n_out w c) by (unfold c, singular_vectors; cbn [andb negb]; now apply iter_reached).
  fold c. assert (MP : 0 < m) by (apply Rlt_le_trans with (/ 10 ^ 6); [apply Rinv_0_lt_compat, pow_lt; lra | exact M]).
  pose proof (divisor_ge m (sigma_estimate n_out c)) as D.
  change (norm n_out (fun j => rover n_in (fun i => snd (fst c) i * w i j))) with (norm n_out (kernel_apply n_in w (snd (fst c)))).
  destruct c as [[u1 v1] u2] eqn:E. cbn [fst snd]. destruct Rc as (Hv & E2 & E1). rewrite <- E2. cbn [sigma_estimate] in *.
  change (isum n_out (fun j => u1 j * u2 j)) with (inner n_out u1 u2) in *.
  destruct (Rle_dec sn_eps (inner n_out u2 u2)) as [B|B].
  - apply div_bound; [exact MP | rewrite E1, normalize_self_eq by exact B; lra | apply norm_nonneg].
  - assert (N6 : norm n_out u2 <= / 10 ^ 6).
    { unfold norm. rewrite <- (sqrt_square (/ 10 ^ 6)) by (left; apply Rinv_0_lt_compat, pow_lt; lra). apply sqrt_le_1_alt.
      unfold sn_eps in B. rewrite <- Rinv_mult, <- pow_add. cbn [Init.Nat.add]. lra. }
    assert (/ sn_divisor m (inner n_out u1 u2) <= 1) by (rewrite <- Rinv_1; apply Rinv_le_contravar; lra).
    assert (0 < / sn_divisor m (inner n_out u1 u2)) by (apply Rinv_0_lt_compat; lra). pose proof (norm_nonneg n_out u2). nra.
Qed.
Definition wd (i j : nat) : R := if (i =? j)%nat then match i with O => 1 | _ => 10 end else 0.
Lemma diag_body c : (let '(u, v, u_) := c in u 1%nat = 0) -> let '(u, v, u_) := scan_body 2 2 wd c in u 1%nat = 0 /\ u_ 1%nat = 0.
Proof.
  destruct c as [[u v] u_]. intros H. unfold scan_body. cbv beta iota.
  set (w := wd).
  assert (A : kernel_transpose 2 w u 1%nat = 0) by (unfold kernel_transpose, isum, w, wd; cbn; rewrite H; ring).
  assert (B : kernel_apply 2 w (l2_normalize 2 (kernel_transpose 2 w u)) 1%nat = 0).
  { set (z := kernel_transpose 2 w u) in *. unfold kernel_apply, isum, w, wd. cbn. rewrite (normalize_eq 2 z 1), A. ring. }
  split; [rewrite normalize_eq, B; ring | exact B].
Qed.
Theorem bound_refuted : exists n_in n_out w u v, forall iteration, ~ gain_at_most n_in n_out (normalized_kernel n_in n_out iteration (95 / 100) true false w u v) (95 / 100).
Proof.
  set (w := wd).
  exists 2%nat, 2%nat, w, (fun i => match i with O => 1 | _ => 0 end), (fun i => match i with O => 1 | _ => 0 end). intros it G.
  set (e0 := fun i => match i with O => 1 | _ => 0 end : R) in *. set (e1 := fun i => match i with O => 0 | _ => 1 end : R).
  assert (W1 : gain_at_most 2 2 (fun i j => if (i =? j)%nat then match i with O => 1 | _ => 0 end else 0) 1).
  { intros x. unfold norm, inner, rover. cbn. rewrite Rmult_1_l. apply sqrt_le_1_alt. pose proof (Rle_0_sqr (x 1%nat)) as Q. unfold Rsqr in Q. nra. }
  (* the estimate never exceeds one *)
  assert (S1 : sigma_estimate 2 (singular_vectors 2 2 it true false w e0 e0) <= 1).
  { unfold singular_vectors. cbn [andb negb]. destruct it as [|it]; [cbn; unfold isum, kernel_apply, isum; cbn; lra|].
    assert (H : forall k, let '(u, v, u_) := Nat.iter (S k) (scan_body 2 2 w) (e0, e0, kernel_apply 2 w e0) in u 1%nat = 0 /\ u_ 1%nat = 0 /\ reached 2 2 w (u, v, u_)).
    { induction k as [|k IH].
      - pose proof (diag_body (e0, e0, kernel_apply 2 w e0) eq_refl) as D. fold w in D. change (Nat.iter 1 (scan_body 2 2 w) (e0, e0, kernel_apply 2 w e0)) with (scan_body 2 2 w (e0, e0, kernel_apply 2 w e0)).
        pose proof (body_reached 2 2 w (e0, e0, kernel_apply 2 w e0)) as Rb. destruct (scan_body 2 2 w (e0, e0, kernel_apply 2 w e0)) as [[a b] c]. tauto.
      - change (Nat.iter (S (S k)) (scan_body 2 2 w) (e0, e0, kernel_apply 2 w e0)) with (scan_body 2 2 w (Nat.iter (S k) (scan_body 2 2 w) (e0, e0, kernel_apply 2 w e0))).
        set (c := Nat.iter (S k) (scan_body 2 2 w) (e0, e0, kernel_apply 2 w e0)) in *.
        destruct c as [[a b] c0] eqn:Ec. pose proof (diag_body (a, b, c0) (proj1 IH)) as D. fold w in D.
        pose proof (body_reached 2 2 w (a, b, c0)) as Rb. destruct (scan_body 2 2 w (a, b, c0)) as [[a' b'] c']. tauto. }
    specialize (H it). match goal with |- sigma_estimate 2 ?c <= 1 => change c with (Nat.iter (S it) (scan_body 2 2 w) (e0, e0, kernel_apply 2 w e0)) end. destruct (Nat.iter (S it) (scan_body 2 2 w) (e0, e0, kernel_apply 2 w e0)) as [[a b] c]. destruct H as (Ha & Hc & Hv & E & Ea).
    cbn [sigma_estimate]. unfold isum. cbn [seq map rsum fold_right]. rewrite Hc.
    assert (C0 : c 0%nat = b 0%nat) by (rewrite E; unfold kernel_apply, isum, w, wd; cbn; ring).
    assert (Na : norm 2 a <= 1) by (rewrite Ea; apply normalize_le).
    assert (Sa : a 0%nat * a 0%nat + a 1%nat * a 1%nat <= 1).
    { pose proof (norm_sq 2 a) as Q. pose proof (norm_nonneg 2 a). unfold inner, rover in Q. cbn in Q. nra. }
    assert (Sb : b 0%nat * b 0%nat + b 1%nat * b 1%nat <= 1).
    { pose proof (norm_sq 2 b) as Q. pose proof (norm_nonneg 2 b). unfold inner, rover in Q. cbn in Q. nra. }
    rewrite C0. pose proof (Rle_0_sqr (a 0%nat - b 0%nat)) as Q. unfold Rsqr in Q. nra. }
  pose proof (G e1) as H. pose proof (norm_normalized 2 2 it w (95 / 100) true false e0 e0 e1) as N. unfold kernel_apply in N. change isum with rover in N. rewrite N in H. clear N.
  set (sg := sigma_estimate 2 (singular_vectors 2 2 it true false w e0 e0)) in *.
  assert (N1 : norm 2 e1 = 1). { unfold norm, inner, rover. cbn. replace (0 * 0 + (1 * 1 + 0)) with 1 by ring. apply sqrt_1. }
  assert (N2 : norm 2 (fun j => rover 2 (fun i => e1 i * w i j)) = 10).
  { unfold norm, inner, rover, w, wd. cbn. match goal with |- sqrt ?x = _ => replace x with (10 * 10) by ring end. apply sqrt_square. lra. }
  rewrite N1, N2 in H. assert (D : sn_divisor (95 / 100) sg <= 2) by (unfold sn_divisor; apply Rmax_lub; lra).
  pose proof (divisor_ge (95 / 100) sg) as D1. assert (/ 2 <= / sn_divisor (95 / 100) sg) by (apply Rinv_le_contravar; lra). lra.
Qed.
