(** A toy for the examples of LapFitProps.v: outputs a x + b with parameters a, b, and a Gaussian likelihood of variance one.
    Its Hessian in the output is -1. *)
From Coq Require Import List Arith ZArith QArith Bool String Reals Lia Lra Classical_Prop.
From Verif Require Import Lib QuantModel TempModel TempSpec PredModel PredSpec LikModel CalibModel TrainModel TrainSpec DescModel DescCases CalRunModel DrawModel WholeModel LapModel LapSpec LapProofs2 TuneModel TuneSpec LapFitModel LapFitSpec LapFitProofs LapFitProofs2.
Import ListNotations.
Open Scope list_scope.
Local Notation length := List.length.
Local Notation concat := List.concat.
Local Open Scope R_scope.

(** ---- there is a differentiation ---- *)
Definition quotient (f : R -> R) (n : nat) : R := (INR n + 1) * (f (/ (INR n + 1)) - f 0).
Definition limit (f : R -> R) : R :=
  match ClassicalDedekindReals.sig_not_dec (Cauchy_crit (quotient f)) with
  | left nn => let (l, _) := R_complete (quotient f) (NNPP _ nn) in l
  | right _ => 0
  end.
Definition derivatives (F : list R -> list R) (v : list R) (o i : nat) : R := limit (fun t => nth o (F (bump v i t)) 0).
Lemma quotient_cv f l : derivable_pt_lim f 0 l -> Un_cv (quotient f) l.
Proof.
  intros D eps E. destruct (D eps E) as [delta B]. destruct (archimed_cor1 delta (cond_pos delta)) as (N & A & N0). exists N. intros n Hn.
  assert (P1 : 0 < INR n + 1) by (pose proof (pos_INR n); lra).
  assert (L : Rabs (/ (INR n + 1)) < delta).
  { rewrite Rabs_right by (apply Rle_ge, Rlt_le, Rinv_0_lt_compat, P1). eapply Rle_lt_trans; [|exact A]. apply Rinv_le_contravar; [apply lt_0_INR; lia|]. apply le_INR in Hn. lra. }
  assert (NZ : / (INR n + 1) <> 0) by (apply Rinv_neq_0_compat; lra). specialize (B (/ (INR n + 1)) NZ L). rewrite Rplus_0_l in B. unfold R_dist, quotient.
  replace ((INR n + 1) * (f (/ (INR n + 1)) - f 0)) with ((f (/ (INR n + 1)) - f 0) / / (INR n + 1)) by (unfold Rdiv; rewrite Rinv_inv; ring). exact B.
Qed.
Lemma derivatives_differentiate : differentiates derivatives.
Proof.
  intros F v o i l _ D. unfold derivatives, limit. pose proof (quotient_cv _ _ D) as CV. destruct (ClassicalDedekindReals.sig_not_dec _) as [nn|n0].
  - destruct (R_complete _ _) as [l' CV']. exact (UL_sequence _ _ _ CV' CV).
  - elim n0. apply CV_Cauchy. now exists l.
Qed.

Definition l_row (p : list R) (_ : option unit) (x : R) : list R := [nth 0 p 0 * x + nth 1 p 0].
Definition l_density (o : list R) (t : R) : R := normal_log_density t (nth 0 o 0) 1.
Definition l_point (p : list R) : WholeModel.member (list R) unit unit unit := {| mb_params := p; mb_mutable := None; mb_calib := tt; mb_calib_mutable := None |}.
Definition l_hessian (_ : list R -> R) (_ : list R) (_ _ : nat) : R := -1.
Definition l_eigh (_ : nat) (H : nat -> nat -> R) : (nat -> R) * (nat -> nat -> R) := (fun _ => H 0%nat 0%nat, fun _ _ => 1).
Definition l_train : list (list R * list R) := [([1], [3]); ([2], [4])].
Definition l_noise (_ : key) (j : nat) : R := INR (S j).
Definition l_fit (jac : (list R -> list R) -> list R -> nat -> nat -> R) (prior : log_var) (which : option (list nat)) (current : option (result (stored unit unit unit))) :=
  laplace_fit (Pr := unit) (Un := unit) l_row (fun p (_ : option unit) m xs => (map (l_row p m) xs, tt)) (fun _ _ _ => tt) false (fun _ _ y => y) (fun _ _ ys => (ys, tt)) (fun _ _ _ => tt)
    (fun _ => tt) (fun _ _ => tt) (fun (_ : list R -> Q) p => map (fun _ => 0) p) (fun g _ => g) (fun g _ => g) (fun g => g) (fun _ g => g) (fun g (os : unit) p => (p, os)) (fun _ => tt)
    None false no_h (fun _ => None) (t_cfg 2) (fun _ => 0%Q) prior l_density jac l_hessian l_eigh (fun n => n) l_noise which false false None true current None l_train None true [] None 1%nat.
Definition l_state (slots : list slot) (v : log_var) : lap_state unit unit unit := {| ls_slots := slots; ls_mutable := None; ls_calib := tt; ls_calib_mutable := None; ls_log_var := v |}.

Lemma l_curvature jac which p i c : differentiates jac -> length p = 2%nat -> selects which 2 -> is_coordinate which i c -> (c < 2)%nat -> (i < length (rav which p))%nat ->
  nth i (curvature unit R R unit unit l_row false (fun _ _ y => y) l_density jac l_hessian l_eigh (l_point p) which l_train) 0 = if (c =? 0)%nat then 5 else 2.
Proof.
  intros J L2 S I C2 IL.
  rewrite (curvature_value l_row false (fun _ _ y => y) l_density jac l_hessian l_eigh (l_point p) which l_train i c J) with (D := fun xt o => if (c =? 0)%nat then fst xt else 1).
  - unfold quad, rover, rtotal, l_hessian, l_train. cbn. destruct (c =? 0)%nat; cbn; lra.
  - cbn. now rewrite L2.
  - exact I.
  - cbn. now rewrite L2.
  - exact IL.
  - intros xt _. cbn [length apply_row calibrated_row with_params mb_params mb_mutable mb_calib l_row l_point]. intros o o' Ho Ho'. unfold rover, rtotal, l_eigh, l_hessian. cbn. lra.
  - intros xt o _ Ho. cbn in Ho. assert (o = 0%nat) by lia. subst o.
    apply (deriv_ext (fun t => (nth 0 p 0 * fst xt + nth 1 p 0) + t * (if (c =? 0)%nat then fst xt else 1))); [|apply deriv_affine].
    intros t. cbn [apply_row calibrated_row with_params mb_params mb_mutable l_point l_row nth]. change (apply_row unit R unit unit l_row false (fun _ _ y => y) (l_point p) (bump p c t) (fst xt)) with (l_row (bump p c t) None (fst xt)).
    unfold l_row. cbn [nth mb_params l_point]. rewrite !nth_bump by lia. destruct c as [|[|c]]; [| |lia]; cbn [Nat.eqb]; ring.
Qed.

Lemma case_fit jac : differentiates jac ->
  l_fit jac (Scalar 0) None (Some (Ok (MapSt (l_point [1; 7])))) = Ok (l_state [Paired 1 5; Paired 7 2] (Scalar 0), None, Ok tt)
  /\ l_fit jac (Scalar 0) (Some [1%nat]) (Some (Ok (MapSt (l_point [1; 7])))) = Ok (l_state [Plain 1; Paired 7 2] (Scalar 0), None, Ok tt)
  /\ l_fit jac (Scalar 0) (Some []) (Some (Ok (MapSt (l_point [1; 7])))) = Err TypeError.
Proof.
  intros J. split; [|split].
  - unfold l_fit, laplace_fit. cbn [laplace_start fit_start check_fit_config andb negb bind kind_of existsb kind_eqb orb rmap init_map_state l_train]. fold l_train. cbn [pair_slots bind mb_params l_point option_map fit_end].
    assert (E : forall i, (i < 2)%nat -> nth i (curvature unit R R unit unit l_row false (fun _ _ y => y) l_density jac l_hessian l_eigh (l_point [1; 7]) None l_train) 0 = if (i =? 0)%nat then 5 else 2) by (intros i Hi; apply l_curvature; auto; reflexivity).
    destruct (curvature _ _ _ _ _ _ _ _ _ _ _ _ _ _ _) as [|a [|b [|z l]]] eqn:EC; pose proof (f_equal (@List.length R) EC) as LC; try discriminate LC.
    pose proof (E 0%nat ltac:(lia)) as A. pose proof (E 1%nat ltac:(lia)) as B. cbn in A, B. subst. reflexivity.
  - unfold l_fit, laplace_fit. cbn [laplace_start fit_start check_fit_config andb negb bind kind_of existsb kind_eqb orb rmap init_map_state l_train]. fold l_train. cbn [pair_slots bind mb_params l_point option_map fit_end].
    assert (E : nth 0 (curvature unit R R unit unit l_row false (fun _ _ y => y) l_density jac l_hessian l_eigh (l_point [1; 7]) (Some [1%nat]) l_train) 0 = 2).
    { apply (l_curvature jac (Some [1%nat]) [1; 7] 0 1 J eq_refl); [|reflexivity|lia|cbn; lia]. split; [repeat constructor; cbn; tauto|repeat constructor]. }
    destruct (curvature _ _ _ _ _ _ _ _ _ _ _ _ _ _ _) as [|a [|b l]] eqn:EC; pose proof (f_equal (@List.length R) EC) as LC; try discriminate LC.
    cbn in E. subst. reflexivity.
  - reflexivity.
Qed.
Lemma case_draw : lap_draw l_noise (l_state [Plain 1; Paired 7 3] (Scalar 0)) None [] = Ok (Some (l_point [1; 7 + 1 / 2])).
Proof.
  unfold lap_draw, TuneModel.draw, compute_std, paired_hess, paired_means, laplace_std. cbn [l_state ls_slots ls_log_var flat_map app map combine length seq rmap].
  rewrite Ropp_0, exp_0. destruct (Rle_lt_dec _ 0) as [N|N]; [lra|]. cbn [option_map all_some rmap]. unfold lap_member. cbn [fill]. repeat f_equal. unfold l_noise. cbn [INR].
  replace (1 + 3) with (2 * 2) by ring. rewrite sqrt_square by lra. rewrite Rmult_1_r. reflexivity.
Qed.
Lemma case_frozen_diagonal jac : differentiates jac ->
  exists s, l_fit jac (Vector [0; 0]) (Some [1%nat]) (Some (Ok (MapSt (l_point [1; 7])))) = Ok (s, None, Ok tt) /\ lap_draw l_noise s None [] = Err TypeError.
Proof.
  intros J. eexists. split; [reflexivity|]. reflexivity.
Qed.
