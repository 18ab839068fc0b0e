(** Proofs about spectral normalisation over a training run. *)
From Coq Require Import List Arith ZArith Lia Bool Reals Lra.
From Verif Require Import Lib TempModel LapModel LapSpec SngpModel SngpSpec SngpProofs SngpProofs4 LapProofs2 PredSpec TfmModel TfmSpec.
Import ListNotations.
Open Scope R_scope.

Lemma run_cons e n_in n_out it m t w rest s : sn_run e n_in n_out it m ((t, w) :: rest) s =
  (fst (sn_call n_in n_out it m (update_flag e t) false w s) :: fst (sn_run e n_in n_out it m rest (snd (sn_call n_in n_out it m (update_flag e t) false w s))),
   snd (sn_run e n_in n_out it m rest (snd (sn_call n_in n_out it m (update_flag e t) false w s)))).
Proof. cbn [sn_run]. destruct (sn_call _ _ _ _ _ _ _ _) as [k s']. cbn [fst snd]. now destruct (sn_run e n_in n_out it m rest s'). Qed.
Lemma call_off n_in n_out it m w s : sn_call n_in n_out it m false false w s = (normalized_kernel n_in n_out it m false false w (fst s) (snd s), s).
Proof. unfold sn_call. destruct s as [u v]. reflexivity. Qed.
Theorem transformer_frozen : forall n_in n_out iteration m calls u v,
  snd (sn_run Transformer n_in n_out iteration m calls (u, v)) = (u, v) /\
  Forall2 (fun k (c : bool * (nat -> nat -> R)) => forall i j, k i j = snd c i j / Rmax (stored_estimate n_in n_out (snd c) u v / m) 1)
    (fst (sn_run Transformer n_in n_out iteration m calls (u, v))) calls.
Proof.
  intros n_in n_out it m calls u v. induction calls as [|[t w] calls [IH1 IH2]]; [split; [reflexivity | constructor]|].
  rewrite run_cons. change (update_flag Transformer t) with false. rewrite call_off. cbn [fst snd]. split; [exact IH1|].
  constructor; [|exact IH2]. intros i j. reflexivity.
Qed.
Lemma forall2_in {A B} (P Q : A -> B -> Prop) l l' : (forall x y, In y l' -> P x y -> Q x y) -> Forall2 P l l' -> Forall2 Q l l'.
Proof. intros H F. induction F as [|x y l l' Hx F IH]; constructor; [apply H; [now left | exact Hx] | apply IH; intros; apply H; [now right | assumption]]. Qed.
Theorem transformer_unnormalized : forall n_in n_out iteration m calls u v s, 0 < m -> 0 <= s ->
  (forall t w, In (t, w) calls -> gain_at_most n_in n_out w s) -> norm n_out u * norm n_in v * s <= m ->
  Forall2 (fun k (c : bool * (nat -> nat -> R)) => same_matrix k (snd c)) (fst (sn_run Transformer n_in n_out iteration m calls (u, v))) calls.
Proof.
  intros n_in n_out it m calls u v s M S0 G B. destruct (transformer_frozen n_in n_out it m calls u v) as [_ F].
  refine (forall2_in _ _ _ _ _ F). intros k [t w] Hin Hk i j. rewrite Hk. cbn [snd]. rewrite Rmax_right; [field|].
  assert (E : stored_estimate n_in n_out w u v <= m).
  { apply Rle_trans with (2 := B). unfold stored_estimate. eapply Rle_trans; [apply cauchy_norm|]. rewrite Rmult_assoc. apply Rmult_le_compat_l; [apply norm_nonneg|].
    rewrite Rmult_comm. apply (G t w). exact Hin. }
  apply Rmult_le_reg_r with m; [exact M|]. unfold Rdiv. rewrite Rmult_assoc, Rinv_l by lra. lra.
Qed.

(** ---- plain networks ---- *)
Section Power.
Variables n_in n_out : nat.
Variable w : mat.
Notation body := (scan_body n_in n_out w).
Lemma body_ignores u v x v' x' : body (u, v, x) = body (u, v', x').
Proof. reflexivity. Qed.
Lemma iter_plus {A} (f : A -> A) k it x : Nat.iter (k + it) f x = Nat.iter k f (Nat.iter it f x).
Proof. induction k as [|k IH]; [reflexivity|]. change (f (Nat.iter (k + it) f x) = f (Nat.iter k f (Nat.iter it f x))). now rewrite IH. Qed.
Lemma iter_restart k it u v : (1 <= it)%nat -> let c := Nat.iter it body (u, v, kernel_apply n_in w v) in
  Nat.iter k body (fst c, kernel_apply n_in w (snd (fst c))) = Nat.iter (k + it) body (u, v, kernel_apply n_in w v).
Proof.
  intros H c. assert (Rc : reached n_in n_out w c) by now apply iter_reached.
  rewrite iter_plus. fold c. clearbody c. destruct c as [[u1 v1] u2]. destruct Rc as (_ & E2 & _). cbn [fst snd]. now rewrite <- E2.
Qed.
Lemma run_repeat it m n : (1 <= it)%nat -> forall u v,
  let c k := Nat.iter k body (u, v, kernel_apply n_in w v) in
  snd (sn_run Plain_net n_in n_out it m (repeat (true, w) n) (u, v)) = match n with O => (u, v) | _ => fst (c (n * it)%nat) end /\
  Forall2 (fun k (p : nat) => same_matrix k (fun i j => w i j / sn_divisor m (sigma_estimate n_out (c (S p * it)%nat)))) (fst (sn_run Plain_net n_in n_out it m (repeat (true, w) n) (u, v))) (seq 0 n).
Proof.
  intros H. induction n as [|n IH]; intros u v c; [split; [reflexivity | constructor]|].
  cbn [repeat]. rewrite run_cons. cbn [update_flag]. 
  set (r := sn_call n_in n_out it m true false w (u, v)).
  assert (Er : snd r = fst (c it)). { unfold r, sn_call. cbn [fst snd]. unfold singular_vectors. cbn [andb negb]. fold (c it). now destruct (c it) as [[? ?] ?]. }
  rewrite Er. destruct (fst (c it)) as [u1 v1] eqn:E1.
  assert (Cc : forall k, Nat.iter k body (u1, v1, kernel_apply n_in w v1) = c (k + it)%nat).
  { intros k. pose proof (iter_restart k it u v H) as Q. fold (c it) in Q. cbn zeta in Q. rewrite E1 in Q. cbn [fst snd] in Q. rewrite Q. reflexivity. }
  destruct (IH u1 v1) as [I1 I2]. cbn [fst snd]. split.
  - rewrite I1. destruct n as [|n]; [now rewrite <- E1, Nat.mul_1_l|]. rewrite Cc. f_equal. f_equal. lia.
  - cbn [seq]. constructor.
    + intros i j. unfold r, sn_call. cbn [fst snd]. unfold normalized_kernel, singular_vectors. cbn [andb negb]. fold (c it). now rewrite Nat.mul_1_l.
    + rewrite <- seq_shift. clear I1. revert I2. generalize (seq 0 n) as ps. generalize (fst (sn_run Plain_net n_in n_out it m (repeat (true, w) n) (u1, v1))) as ks.
      intros ks ps F. induction F as [|k p ks ps Hk F IHF]; [constructor|]. constructor; [|exact IHF].
      intros i j. rewrite Hk. rewrite Cc. do 4 f_equal. lia.
Qed.
End Power.
Lemma run_last n_in n_out w it m n u v : (1 <= it)%nat ->
  same_matrix (last (fst (sn_run Plain_net n_in n_out it m (repeat (true, w) (S n)) (u, v))) w)
    (fun i j => w i j / sn_divisor m (sigma_estimate n_out (Nat.iter (S n * it) (scan_body n_in n_out w) (u, v, kernel_apply n_in w v)))).
Proof.
  intros I. destruct (run_repeat n_in n_out w it m (S n) I u v) as [_ A2]. rewrite seq_S in A2. apply Forall2_app_inv_r in A2 as (l1 & l2 & _ & F2 & ->).
  inversion F2 as [|k p l l' Hk F']; subst. inversion F'; subst. rewrite last_last. exact Hk.
Qed.
Theorem plain_repeated : forall n_in n_out iteration m w u v n, (1 <= iteration)%nat -> (1 <= n)%nat ->
  let once := sn_run Plain_net n_in n_out (n * iteration) m [(true, w)] (u, v) in
  let many := sn_run Plain_net n_in n_out iteration m (repeat (true, w) n) (u, v) in
  snd many = snd once /\ same_matrix (last (fst many) w) (last (fst once) w).
Proof.
  intros n_in n_out it m w u v n I N once many. unfold once, many. destruct n as [|n]; [lia|].
  destruct (run_repeat n_in n_out w it m (S n) I u v) as [A1 _]. assert (I' : (1 <= S n * it)%nat) by nia.
  destruct (run_repeat n_in n_out w (S n * it) m 1 I' u v) as [B1 _].
  pose proof (run_last n_in n_out w it m n u v I) as A2. pose proof (run_last n_in n_out w (S n * it) m 0 u v I') as B2.
  rewrite Nat.mul_1_l in B1, B2. change (repeat (true, w) 1) with [(true, w)] in B1, B2. split.
  - rewrite A1. symmetry. exact B1.
  - intros i j. etransitivity; [apply A2|]. symmetry. apply B2.
Qed.
Theorem plain_evaluation : forall n_in n_out iteration m w u v, (1 <= iteration)%nat ->
  exists k k' s, sn_run Plain_net n_in n_out iteration m [(true, w); (false, w)] (u, v) = ([k; k'], s) /\
    same_matrix k' k /\ snd (sn_run Plain_net n_in n_out iteration m [(true, w)] (u, v)) = s.
Proof.
  intros n_in n_out it m w u v I. rewrite !run_cons. cbn [update_flag sn_run fst snd].
  set (r := sn_call n_in n_out it m true false w (u, v)). rewrite call_off. cbn [fst snd].
  eexists _, _, _. split; [reflexivity|]. split; [|reflexivity].
  assert (Rc : reached n_in n_out w (singular_vectors n_in n_out it true false w u v)) by (unfold singular_vectors; cbn [andb negb]; now apply iter_reached).
  intros i j. unfold r, sn_call, normalized_kernel. cbn [fst snd].
  destruct (singular_vectors n_in n_out it true false w u v) as [[u1 v1] u2] eqn:E. destruct Rc as (_ & E2 & _). cbn [fst snd]. unfold singular_vectors. cbn [andb negb]. now rewrite <- E2.
Qed.

(** ---- convergence ---- *)
Lemma unbounded x : exists N, x < INR N.
Proof.
  destruct (archimed x) as [H _]. exists (Z.to_nat (up x)). rewrite INR_IZR_INZ. apply Rlt_le_trans with (1 := H). apply IZR_le. lia.
Qed.
Section Converge.
Variables n_in n_out : nat.
Variable w : mat.
Variable s : R.
Variables a b : vec.
Hypothesis top : top_singular n_in n_out w s a b.
Notation body := (scan_body n_in n_out w).
Lemma s_nonneg : 0 <= s.
Proof.
  destruct top as (Na & Nb & G & _). pose proof (G a) as Ga. rewrite Na in Ga. pose proof (norm_nonneg n_out (fun j => rover n_in (fun i => a i * w i j))). lra.
Qed.
Lemma out_b v : inner n_out (kernel_apply n_in w v) b = s * inner n_in v a.
Proof.
  rewrite adjoint. destruct top as (_ & _ & _ & _ & Hb).
  rewrite (inner_ext n_in v v (kernel_transpose n_out w b) (fun i => s * a i)); [apply inner_scale_r | reflexivity | intros i Hi; apply Hb; exact Hi].
Qed.
Lemma in_a u : inner n_in (kernel_transpose n_out w u) a = s * inner n_out u b.
Proof.
  rewrite inner_comm, <- adjoint. destruct top as (_ & _ & _ & Ha & _).
  rewrite (inner_ext n_out (kernel_apply n_in w a) (fun j => s * b j) u u); [rewrite inner_scale_l, inner_comm; reflexivity | intros j Hj; apply Ha; exact Hj | reflexivity].
Qed.
Lemma transpose_gain u : norm n_in (kernel_transpose n_out w u) <= s * norm n_out u.
Proof.
  set (x := kernel_transpose n_out w u). destruct top as (_ & _ & G & _).
  assert (A : norm n_in x * norm n_in x <= s * norm n_in x * norm n_out u).
  { rewrite norm_sq. unfold x at 2. rewrite <- adjoint. eapply Rle_trans; [apply cauchy_norm|]. apply Rmult_le_compat_r; [apply norm_nonneg|]. apply (kernel_norm n_in n_out w s x G). }
  pose proof (norm_nonneg n_in x). pose proof s_nonneg. pose proof (norm_nonneg n_out u).
  destruct (Req_dec (norm n_in x) 0) as [Z|Z]; [rewrite Z; now apply Rmult_le_pos|]. apply Rmult_le_reg_l with (norm n_in x); nra.
Qed.
Lemma sn_eps_sq : sn_eps = / 10 ^ 6 * / 10 ^ 6.
Proof. unfold sn_eps. rewrite <- Rinv_mult, <- pow_add. reflexivity. Qed.
Lemma e6_pos : 0 < / 10 ^ 6. Proof. apply Rinv_0_lt_compat, pow_lt. lra. Qed.
Lemma big_norm n x : / 10 ^ 6 <= norm n x -> sn_eps <= inner n x x.
Proof. intros H. rewrite sn_eps_sq, <- norm_sq. pose proof e6_pos. nra. Qed.
Lemma inner_normalize_b u1 : / 10 ^ 6 <= norm n_out u1 -> inner n_out (l2_normalize n_out u1) b = inner n_out u1 b / norm n_out u1.
Proof. intros H. rewrite normalize_inner, dd_big by now apply big_norm. unfold Rdiv. ring. Qed.

Definition gam (c : vec * vec * vec) : R := inner n_out (fst (fst c)) b.
Lemma first_step u v x : / 10 ^ 6 <= s * inner n_out u b -> / 10 ^ 6 * norm n_out u <= s * inner n_out u b ->
  / 10 ^ 6 <= sigma_estimate n_out (body (u, v, x)) /\ 0 < gam (body (u, v, x)).
Proof.
  intros H1 H2. unfold gam. cbn [scan_body fst snd sigma_estimate].
  set (v_ := kernel_transpose n_out w u). set (v' := l2_normalize n_in v_). set (u1 := kernel_apply n_in w v').
  pose proof e6_pos as EP. pose proof s_nonneg as S0. destruct top as (Na & Nb & G & _).
  assert (Va : s * inner n_out u b <= norm n_in v_).
  { pose proof (cauchy_norm n_in v_ a) as C. unfold v_ in C at 1. rewrite in_a, Na in C. lra. }
  pose proof (transpose_gain u) as Vg. fold v_ in Vg.
  assert (Up : 0 < s * norm n_out u) by lra. assert (Sp : 0 < s) by (pose proof (norm_nonneg n_out u); nra). assert (Un : 0 < norm n_out u) by nra.
  assert (Gp : 0 < inner n_out u b) by nra.
  assert (Vb : sn_eps <= inner n_in v_ v_) by (apply big_norm; lra).
  assert (Ub : inner n_out u1 b = s * (s * inner n_out u b) / norm n_in v_).
  { unfold u1. rewrite out_b. unfold v'. rewrite normalize_inner, dd_big by exact Vb. unfold v_ at 2. rewrite in_a. unfold Rdiv. ring. }
  assert (Vp : 0 < norm n_in v_) by lra.
  assert (B1 : / 10 ^ 6 <= inner n_out u1 b).
  { rewrite Ub. apply Rmult_le_reg_r with (norm n_in v_); [exact Vp|]. replace (s * (s * inner n_out u b) / norm n_in v_ * norm n_in v_) with (s * (s * inner n_out u b)) by (field; lra).
    apply Rle_trans with (/ 10 ^ 6 * (s * norm n_out u)); [apply Rmult_le_compat_l; lra|]. nra. }
  assert (N1 : / 10 ^ 6 <= norm n_out u1). { pose proof (cauchy_norm n_out u1 b) as C. rewrite Nb in C. lra. }
  change (isum n_out (fun j => l2_normalize n_out u1 j * u1 j)) with (inner n_out (l2_normalize n_out u1) u1).
  split.
  { rewrite normalize_self_eq; [exact N1 | now apply big_norm]. }
  rewrite inner_normalize_b by exact N1. apply Rdiv_lt_0_compat; lra.
Qed.
Lemma next_step c : reached n_in n_out w c -> / 10 ^ 6 <= sigma_estimate n_out c -> 0 < gam c ->
  sigma_estimate n_out c <= sigma_estimate n_out (body c) /\
  s * s * gam c <= sigma_estimate n_out (body c) * sigma_estimate n_out (body c) * gam (body c).
Proof.
  intros Rc H Gc. pose proof e6_pos as EP. assert (H2 : sn_eps <= sigma_estimate n_out c * sigma_estimate n_out c) by (rewrite sn_eps_sq; nra).
  assert (Inc : sigma_estimate n_out c <= sigma_estimate n_out (body c)) by (apply body_increases; [exact Rc | lra | exact H2]).
  split; [exact Inc|].
  pose proof (reached_norm n_in n_out w c Rc H2) as N. destruct c as [[u v] u_]. destruct Rc as (Hv & E & Eu). destruct N as [Ns Ne]. rewrite Ns in *.
  unfold gam in *. cbn [fst snd] in *. cbn [scan_body sigma_estimate fst snd] in *.
  set (v_ := kernel_transpose n_out w u) in *. set (v' := l2_normalize n_in v_) in *. set (u1 := kernel_apply n_in w v') in *.
  change (isum n_out (fun j => l2_normalize n_out u1 j * u1 j)) with (inner n_out (l2_normalize n_out u1) u1) in *.
  assert (A1 : norm n_out u_ <= norm n_in v_).
  { pose proof (cauchy_norm n_in v v_) as C. unfold v_ in C at 1. rewrite <- adjoint, <- E, inner_comm, Eu, normalize_self_eq in C by exact Ne.
    pose proof (norm_nonneg n_in v_). nra. }
  assert (Vb : sn_eps <= inner n_in v_ v_) by (apply big_norm; lra).
  assert (Un : norm n_out u <= 1) by (rewrite Eu; apply normalize_le).
  assert (A2 : norm n_in v_ <= norm n_out u1).
  { pose proof (cauchy_norm n_out u1 u) as C. unfold u1 in C at 1. rewrite adjoint in C. fold v_ in C. unfold v' in C. rewrite normalize_self_eq in C by exact Vb.
    pose proof (norm_nonneg n_out u1). fold v' in C. nra. }
  assert (N1 : / 10 ^ 6 <= norm n_out u1) by lra.
  rewrite normalize_self_eq by now apply big_norm. rewrite inner_normalize_b by exact N1.
  assert (Ub : inner n_out u1 b = s * (s * inner n_out u b) / norm n_in v_).
  { unfold u1. rewrite out_b. unfold v'. rewrite normalize_inner, dd_big by exact Vb. unfold v_ at 2. rewrite in_a. unfold Rdiv. ring. }
  rewrite Ub. replace (norm n_out u1 * norm n_out u1 * (s * (s * inner n_out u b) / norm n_in v_ / norm n_out u1)) with (s * s * inner n_out u b * (norm n_out u1 / norm n_in v_)) by (field; lra).
  rewrite <- (Rmult_1_r (s * s * inner n_out u b)) at 1. apply Rmult_le_compat_l; [apply Rmult_le_pos; [apply Rle_0_sqr | lra]|].
  apply Rmult_le_reg_r with (norm n_in v_); [lra|]. replace (norm n_out u1 / norm n_in v_ * norm n_in v_) with (norm n_out u1) by (field; lra). lra.
Qed.
Section Start.
Variables u v x : vec.
Hypothesis start : / 10 ^ 6 * (1 + norm n_out u) <= s * inner n_out u b.
Notation c k := (Nat.iter (S k) body (u, v, x)).
Lemma start_1 : / 10 ^ 6 <= sigma_estimate n_out (c 0%nat) /\ 0 < gam (c 0%nat).
Proof. apply first_step; pose proof (norm_nonneg n_out u); pose proof e6_pos; nra. Qed.
Lemma all_steps k : / 10 ^ 6 <= sigma_estimate n_out (c k) /\ 0 < gam (c k) /\ sigma_estimate n_out (c k) <= sigma_estimate n_out (c (S k)) /\
  s * s * gam (c k) <= sigma_estimate n_out (c (S k)) * sigma_estimate n_out (c (S k)) * gam (c (S k)).
Proof.
  assert (St : forall k, / 10 ^ 6 <= sigma_estimate n_out (c k) -> 0 < gam (c k) -> sigma_estimate n_out (c k) <= sigma_estimate n_out (c (S k)) /\
     s * s * gam (c k) <= sigma_estimate n_out (c (S k)) * sigma_estimate n_out (c (S k)) * gam (c (S k))).
  { intros j A B. apply next_step; [apply iter_reached; lia | exact A | exact B]. }
  assert (Sp : 0 < s) by (pose proof s_nonneg; pose proof (norm_nonneg n_out u); pose proof e6_pos; destruct (Req_dec s 0) as [Z|Z]; [rewrite Z in start; nra | lra]).
  induction k as [|k (A & B & Cc & D)].
  - destruct start_1 as [A B]. destruct (St 0%nat A B) as [Cc D]. auto.
  - assert (A' : / 10 ^ 6 <= sigma_estimate n_out (c (S k))) by lra.
    assert (B' : 0 < gam (c (S k))).
    { pose proof e6_pos. assert (0 < s * s * gam (c k)) by (apply Rmult_lt_0_compat; [nra | exact B]).
      assert (0 < sigma_estimate n_out (c (S k)) * sigma_estimate n_out (c (S k))) by nra. nra. }
    destruct (St (S k) A' B') as [Cc' D']. auto.
Qed.
Lemma mono j k : (j <= k)%nat -> sigma_estimate n_out (c j) <= sigma_estimate n_out (c k).
Proof. induction 1 as [|k H IH]; [lra|]. destruct (all_steps k) as (_ & _ & I & _). lra. Qed.
Lemma gam_le k : gam (c k) <= 1.
Proof.
  assert (Rc : reached n_in n_out w (c k)) by (apply iter_reached; lia). unfold gam. destruct (c k) as [[u1 v1] u2]. destruct Rc as (_ & _ & ->). cbn [fst snd].
  eapply Rle_trans; [apply cauchy_norm|]. destruct top as (_ & -> & _). pose proof (normalize_le n_out u2). lra.
Qed.
Lemma growth L n : 0 < L -> sigma_estimate n_out (c n) <= L -> (s * s / (L * L)) ^ n * gam (c 0%nat) <= gam (c n).
Proof.
  intros Lp. induction n as [|n IH]; intros H; [cbn [pow]; lra|].
  destruct (all_steps n) as (A & B & I & D). assert (Hn : sigma_estimate n_out (c n) <= L) by lra. specialize (IH Hn).
  destruct (all_steps (S n)) as (A' & B' & _). pose proof e6_pos.
  assert (Q : s * s * gam (c n) <= L * L * gam (c (S n))).
  { eapply Rle_trans; [exact D|]. apply Rmult_le_compat_r; [lra|]. nra. }
  cbn [pow]. rewrite Rmult_assoc. apply Rle_trans with (s * s / (L * L) * gam (c n)).
  - apply Rmult_le_compat_l; [|exact IH]. apply Rmult_le_pos; [apply Rle_0_sqr | left; apply Rinv_0_lt_compat; nra].
  - apply Rmult_le_reg_l with (L * L); [nra|]. replace (L * L * (s * s / (L * L) * gam (c n))) with (s * s * gam (c n)) by (field; lra). exact Q.
Qed.
Lemma eventually L : 0 < L < s -> exists N, forall k, (N <= k)%nat -> L < sigma_estimate n_out (c k).
Proof.
  intros [Lp Ls]. destruct start_1 as [_ G0]. set (q := s * s / (L * L)).
  assert (Q : 0 < q - 1).
  { unfold q. assert (L * L < s * s) by nra. assert (1 < s * s / (L * L)); [|lra]. apply Rmult_lt_reg_r with (L * L); [nra|]. replace (s * s / (L * L) * (L * L)) with (s * s) by (field; lra). lra. }
  destruct (unbounded (/ (gam (c 0%nat) * (q - 1)))) as [N HN]. exists N. intros k K.
  apply Rlt_le_trans with (sigma_estimate n_out (c N)); [|now apply mono]. destruct (Rlt_le_dec L (sigma_estimate n_out (c N))) as [Y|Y]; [exact Y|]. exfalso.
  pose proof (growth L N Lp Y) as Gr. pose proof (gam_le N) as Gl. fold q in Gr. pose proof (poly N (q - 1) Q) as P. replace (1 + (q - 1)) with q in P by ring.
  set (g := gam (c 0%nat)) in *. assert (gq : 0 < g * (q - 1)) by (apply Rmult_lt_0_compat; lra).
  assert (1 < INR N * (g * (q - 1))). { apply Rmult_lt_reg_r with (/ (g * (q - 1))); [now apply Rinv_0_lt_compat|]. rewrite Rmult_1_l. rewrite Rmult_assoc, Rinv_r by lra. lra. }
  assert (INR N * (q - 1) <= q ^ N) by lra. assert (INR N * (q - 1) * g <= q ^ N * g) by (apply Rmult_le_compat_r; lra). nra.
Qed.
End Start.
End Converge.

Lemma scaled_gain n_in n_out k w m sg s e : 0 < m -> 0 < e -> 0 < s -> m * s / (m + e) < sg -> gain_at_most n_in n_out w s ->
  same_matrix k (fun i j => w i j / sn_divisor m sg) -> gain_at_most n_in n_out k (m + e).
Proof.
  intros M E Sp HN G Hk.
  intros x. pose proof (G x) as Gx. pose proof (divisor_ge m sg) as D.
  assert (EqN : norm n_out (fun j => rover n_in (fun i => x i * k i j)) = / sn_divisor m sg * norm n_out (fun j => rover n_in (fun i => x i * w i j))).
  { rewrite <- norm_scale by (left; apply Rinv_0_lt_compat; lra). apply norm_ext. intros j _.
    rewrite <- rover_scale_l. apply rover_ext. intros i _. rewrite Hk. unfold Rdiv. ring. }
  rewrite EqN. assert (Dp : 0 < / sn_divisor m sg) by (apply Rinv_0_lt_compat; lra).
  apply Rle_trans with (/ sn_divisor m sg * (s * norm n_in x)); [apply Rmult_le_compat_l; lra|].
  rewrite <- Rmult_assoc. apply Rmult_le_compat_r; [apply norm_nonneg|].
  assert (D2 : sg / m <= sn_divisor m sg) by apply Rmax_l.
  assert (D3 : s / (m + e) <= sn_divisor m sg).
  { apply Rle_trans with (sg / m); [|exact D2]. apply Rmult_le_reg_r with m; [exact M|]. replace (sg / m * m) with sg by (field; lra).
    replace (s / (m + e) * m) with (m * s / (m + e)) by (field; lra). lra. }
  apply Rmult_le_reg_l with (sn_divisor m sg); [lra|]. rewrite <- Rmult_assoc, Rinv_r by lra. rewrite Rmult_1_l.
  replace s with (s / (m + e) * (m + e)) at 1 by (field; lra). apply Rmult_le_compat_r; lra.
Qed.
Theorem plain_converges : forall n_in n_out iteration m w s a b u v e, (1 <= iteration)%nat -> 0 < m -> 0 < e ->
  top_singular n_in n_out w s a b -> / 10 ^ 6 * (1 + norm n_out u) <= s * inner n_out u b ->
  exists N, forall n, (N <= n)%nat ->
    gain_at_most n_in n_out (last (fst (sn_run Plain_net n_in n_out iteration m (repeat (true, w) n) (u, v))) w) (m + e).
Proof.
  intros n_in n_out it m w s a b u v e I M E T St.
  assert (Sp : 0 < s). { pose proof (s_nonneg n_in n_out w s a b T). pose proof (norm_nonneg n_out u). pose proof e6_pos. destruct (Req_dec s 0) as [Z|Z]; [rewrite Z in St; nra | lra]. }
  set (L := m * s / (m + e)).
  assert (HL : 0 < L < s).
  { unfold L. split; [apply Rdiv_lt_0_compat; nra|]. apply Rmult_lt_reg_r with (m + e); [lra|]. replace (m * s / (m + e) * (m + e)) with (m * s) by (field; lra). nra. }
  destruct (eventually n_in n_out w s a b T u v (kernel_apply n_in w v) St L HL) as [N HN].
  exists (S N). intros n Hn. destruct n as [|n]; [lia|].
  pose proof (run_last n_in n_out w it m n u v I) as Hk. assert (Ex : exists q, (S n * it = S q)%nat /\ (N <= q)%nat) by (exists (S n * it - 1)%nat; nia). destruct Ex as (q & Eq & Hq). rewrite Eq in Hk.
  eapply scaled_gain; [exact M | exact E | exact Sp | exact (HN q Hq) | apply T | exact Hk].
Qed.
