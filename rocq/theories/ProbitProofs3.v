From Coq Require Import List Arith Bool ZArith Permutation Sorted Reals Lra Lia Psatz.
From Verif Require Import Lib ConfClassModel ConfClassProofs2 TempModel TempSpec PredSpec LapModel LapSpec LapProofs2 SngpModel SngpSpec SngpProofs SngpProofs2 ProbitModel ProbitSpec ProbitProofs ProbitProofs2.
Import ListNotations.
Open Scope R_scope.

(** ---- scaling ---- *)
Lemma denominator_ge lv s : 0 <= s -> 1 <= 1 + PI / 8 * exp lv * s.
Proof. intros H. pose proof PI_RGT_0. pose proof (exp_pos lv). assert (0 <= PI / 8 * exp lv) by nra. nra. Qed.
Lemma row_norm_inner np J o : row_norm np J o = inner np (J o) (J o).
Proof. unfold row_norm, inner. rewrite isum_rover. apply rover_ext. intros; ring. Qed.
Lemma row_norm_nonneg np J o : 0 <= row_norm np J o.
Proof. rewrite row_norm_inner. apply inner_nonneg. Qed.
Lemma set_at_length i v l : length (set_at i v l) = length l.
Proof. revert i; induction l as [|x l IH]; intros [|i]; cbn; auto. Qed.
Lemma set_at_nth i v l o d : (o < length l)%nat -> nth o (set_at i v l) d = if (o =? i)%nat then v else nth o l d.
Proof. revert i o; induction l as [|x l IH]; intros [|i] [|o] H; cbn in *; try lia; try reflexivity. apply IH. lia. Qed.
Lemma fold_set_length (v : nat -> R) idx : forall base, length (fold_left (fun a i => set_at i (v i) a) idx base) = length base.
Proof. induction idx as [|i idx IH]; intros base; cbn [fold_left]; [reflexivity|]. now rewrite IH, set_at_length. Qed.
Lemma fold_set_out (v : nat -> R) idx o d : forall base, (o < length base)%nat -> ~ In o idx -> nth o (fold_left (fun a i => set_at i (v i) a) idx base) d = nth o base d.
Proof.
  induction idx as [|i idx IH]; intros base H N; cbn [fold_left]; [reflexivity|]. rewrite IH; [|now rewrite set_at_length|intros X; apply N; now right].
  rewrite set_at_nth by exact H. destruct (Nat.eqb_spec o i) as [->|]; [|reflexivity]. exfalso. apply N. now left.
Qed.
Lemma fold_set_in (v : nat -> R) idx o d : forall base, (o < length base)%nat -> In o idx -> nth o (fold_left (fun a i => set_at i (v i) a) idx base) d = v o.
Proof.
  induction idx as [|i idx IH]; intros base H N; cbn [fold_left]; [destruct N|]. destruct (in_dec Nat.eq_dec o idx) as [I|I].
  - apply IH; [now rewrite set_at_length|exact I].
  - rewrite fold_set_out; [|now rewrite set_at_length|exact I]. rewrite set_at_nth by exact H. destruct N as [<-|N]; [|contradiction]. now rewrite Nat.eqb_refl.
Qed.
Lemma rmax_spec l : l <> [] -> In (rmax l) l /\ forall x, In x l -> x <= rmax l.
Proof.
  destruct l as [|x r]; [easy|]. intros _. cbn [rmax]. induction r as [|y r IH]; cbn [fold_right]; [split; [now left|intros z [<-|[]]; lra]|].
  destruct IH as [I U]. split.
  - destruct (Rmax_case_strong y (fold_right Rmax x r) (fun q => q = y \/ q = fold_right Rmax x r)) as [E|E]; [now left|now right|rewrite E; right; now left|rewrite E]. destruct I as [I|I]; [left; exact I|right; right; exact I].
  - intros z [<-|[<-|Hz]].
    + eapply Rle_trans; [apply U; now left|apply Rmax_r].
    + apply Rmax_l.
    + eapply Rle_trans; [apply U; now right|apply Rmax_r].
Qed.
Lemma nth_map_seq (g : nat -> R) n o : (o < n)%nat -> nth o (map g (seq 0 n)) 0 = g o.
Proof. intros H. rewrite (nth_indep _ 0 (g 0%nat)) by (rewrite map_length, seq_length; exact H). now rewrite map_nth, seq_nth by exact H. Qed.
Lemma nth_map_const {A} (m : R) (l : list A) o : (o < length l)%nat -> nth o (map (fun _ => m) l) 0 = m.
Proof. revert o; induction l as [|x l IH]; intros [|o] H; cbn in *; try lia; try reflexivity. apply IH. lia. Qed.
Lemma Rleb_total x y : Rleb x y = false -> Rleb y x = true.
Proof. unfold Rleb. destruct (Rle_dec x y), (Rle_dec y x); try easy. intros _. exfalso. lra. Qed.
Lemma Rleb_trans x y z : Rleb x y = true -> Rleb y z = true -> Rleb x z = true.
Proof. unfold Rleb. destruct (Rle_dec x y), (Rle_dec y z), (Rle_dec x z); try easy. intros _ _. exfalso. lra. Qed.
Lemma Rsort_perm f : Permutation (seq 0 (length f)) (argsort Rleb 0 f).
Proof. exact (argsort_perm Rleb 0 Rleb_total Rleb_trans f). Qed.
Lemma top_indices_spec k f : (1 <= k <= length f)%nat ->
  length (top_indices k f) = k /\ NoDup (top_indices k f) /\ (forall i, In i (top_indices k f) -> (i < length f)%nat) /\
  forall i j, In i (top_indices k f) -> (j < length f)%nat -> ~ In j (top_indices k f) -> nth j f 0 <= nth i f 0.
Proof.
  intros Hk. unfold top_indices, last_k. destruct k as [|k]; [lia|]. set (s := argsort Rleb 0 f).
  assert (Pm : Permutation (seq 0 (length f)) s) by apply Rsort_perm.
  assert (Sr : StronglySorted (before Rleb 0 f) s).
  { exact (argsort_sorted Rleb 0 Rleb_total Rleb_trans f). }
  assert (Ls : length s = length f) by (rewrite <- (Permutation_length Pm); apply seq_length).
  assert (ND : NoDup s) by (apply (Permutation_NoDup Pm), seq_NoDup).
  rewrite Ls. set (m := (length f - S k)%nat).
  pose proof (firstn_skipn m s) as FS. split; [rewrite skipn_length; unfold m; lia|].
  split; [rewrite <- FS in ND; clear - ND; induction (firstn m s) as [|x a IH]; [exact ND|inversion ND; auto]|].
  split.
  - intros i Hi. assert (In i s) by (rewrite <- FS; apply in_or_app; now right). apply (Permutation_in _ (Permutation_sym Pm)) in H. apply in_seq in H. lia.
  - intros i j Hi Hj Nj. assert (In j s) by (apply (Permutation_in _ Pm), in_seq; lia). rewrite <- FS in H. apply in_app_or in H. destruct H as [H|H]; [|contradiction].
    rewrite <- FS in Sr. clear - Sr H Hi. induction (firstn m s) as [|x a IH]; [destruct H|]. cbn [app] in Sr. inversion Sr as [|? ? S1 F]; subst. destruct H as [->|H].
    + rewrite Forall_forall in F. destruct (F i) as [L _]; [apply in_or_app; now right|]. unfold Rleb in L. destruct (Rle_dec _ _); [assumption|discriminate].
    + apply IH; assumption.
Qed.
Lemma row_norms_length np J top_k f : length (row_norms np J top_k f) = length f.
Proof. destruct top_k; cbn [row_norms]; [rewrite fold_set_length, map_length; reflexivity|]. now rewrite map_length, seq_length. Qed.
Lemma probit_length np J top_k lv f : length (probit_scaling np J top_k lv f) = length f.
Proof. unfold probit_scaling. rewrite map_length, combine_length, row_norms_length. lia. Qed.
Lemma probit_nth np J top_k lv f o : (o < length f)%nat -> nth o (probit_scaling np J top_k lv f) 0 = scaled_output lv (nth o f 0) (nth o (row_norms np J top_k f) 0).
Proof.
  intros H. unfold probit_scaling. rewrite (nth_indep _ 0 (scaled_output lv (fst (0, 0)) (snd (0, 0)))) by (rewrite map_length, combine_length, row_norms_length; lia).
  rewrite (map_nth (fun q => scaled_output lv (fst q) (snd q))). rewrite combine_nth by (now rewrite row_norms_length). reflexivity.
Qed.
Theorem probit_full : forall np J log_var f o, (o < length f)%nat ->
  nth o (probit_scaling np J None log_var f) 0 = nth o f 0 / (1 + PI / 8 * exp log_var * inner np (J o) (J o)).
Proof.
  intros np J lv f o H. rewrite probit_nth by exact H. cbn [row_norms]. rewrite nth_map_seq by exact H. unfold scaled_output. now rewrite row_norm_inner.
Qed.
Theorem probit_top_k : forall np J k log_var f, (1 <= k <= length f)%nat -> exists chosen m,
  length chosen = k /\ NoDup chosen /\ (forall i, In i chosen -> (i < length f)%nat) /\
  (forall i j, In i chosen -> (j < length f)%nat -> ~ In j chosen -> nth j f 0 <= nth i f 0) /\
  (exists i, In i chosen /\ m = inner np (J i) (J i)) /\ (forall i, In i chosen -> inner np (J i) (J i) <= m) /\
  forall o, (o < length f)%nat ->
  nth o (probit_scaling np J (Some k) log_var f) 0 = nth o f 0 / (1 + PI / 8 * exp log_var * (if in_dec Nat.eq_dec o chosen then inner np (J o) (J o) else m)).
Proof.
  intros np J k lv f Hk. destruct (top_indices_spec k f Hk) as (L & ND & B & T). set (idx := top_indices k f) in *.
  set (m := rmax (map (row_norm np J) idx)).
  destruct (rmax_spec (map (row_norm np J) idx)) as [I U]. { destruct idx; [cbn in L; lia|discriminate]. }
  exists idx, m. split; [exact L|]. split; [exact ND|]. split; [exact B|]. split; [exact T|]. split; [|split].
  - fold m in I. apply in_map_iff in I. destruct I as (i & E & Hi). exists i. split; [exact Hi|]. now rewrite <- row_norm_inner, E.
  - intros i Hi. rewrite <- row_norm_inner. apply U, in_map, Hi.
  - intros o Ho. rewrite probit_nth by exact Ho. unfold scaled_output. do 3 f_equal. cbn [row_norms]. fold idx. fold m.
    destruct (in_dec Nat.eq_dec o idx) as [X|X].
    + rewrite fold_set_in by (rewrite ?map_length; assumption). apply row_norm_inner.
    + rewrite fold_set_out by (rewrite ?map_length; assumption). rewrite nth_map_const by exact Ho. ring.
Qed.
Lemma norms_nonneg np J top_k f o : 0 <= nth o (row_norms np J top_k f) 0.
Proof.
  destruct (Nat.lt_ge_cases o (length f)) as [H|H]; [|rewrite nth_overflow by (now rewrite row_norms_length); lra].
  destruct top_k as [k|]; cbn [row_norms].
  - set (idx := top_indices k f). set (m := rmax (map (row_norm np J) idx)). destruct (in_dec Nat.eq_dec o idx) as [X|X].
    + rewrite fold_set_in by (rewrite ?map_length; assumption). apply row_norm_nonneg.
    + rewrite fold_set_out by (rewrite ?map_length; assumption). rewrite nth_map_const by exact H.
      rewrite Rmult_1_r. unfold m. destruct idx as [|i idx']; [cbn; lra|].
      destruct (rmax_spec (map (row_norm np J) (i :: idx'))) as [I _]; [discriminate|]. apply in_map_iff in I. destruct I as (q & <- & _). apply row_norm_nonneg.
  - rewrite nth_map_seq by exact H. apply row_norm_nonneg.
Qed.
Lemma div_le_div f d d' : 1 <= d <= d' -> Rabs (f / d') <= Rabs (f / d).
Proof.
  intros H. unfold Rdiv. rewrite !Rabs_mult. apply Rmult_le_compat_l; [apply Rabs_pos|].
  rewrite !Rabs_right by (apply Rle_ge, Rlt_le, Rinv_0_lt_compat; lra). apply Rinv_le_contravar; lra.
Qed.
Theorem probit_shrinks : forall np J top_k lv lv' f o, lv <= lv' -> (o < length f)%nat ->
  length (probit_scaling np J top_k lv f) = length f /\
  Rabs (nth o (probit_scaling np J top_k lv' f) 0) <= Rabs (nth o (probit_scaling np J top_k lv f) 0) <= Rabs (nth o f 0) /\
  (0 < nth o f 0 -> 0 < nth o (probit_scaling np J top_k lv f) 0) /\ (nth o f 0 < 0 -> nth o (probit_scaling np J top_k lv f) 0 < 0).
Proof.
  intros np J top_k lv lv' f o Hl Ho. split; [apply probit_length|]. rewrite !probit_nth by exact Ho. unfold scaled_output.
  set (s := nth o (row_norms np J top_k f) 0). assert (Hs : 0 <= s) by apply norms_nonneg.
  pose proof (denominator_ge lv s Hs) as D. pose proof (denominator_ge lv' s Hs) as D'.
  assert (E : exp lv <= exp lv') by (destruct Hl as [Hl| ->]; [left; now apply exp_increasing|lra]).
  pose proof PI_RGT_0 as HP.
  assert (M : PI / 8 * exp lv * s <= PI / 8 * exp lv' * s) by (apply Rmult_le_compat_r; [exact Hs|]; apply Rmult_le_compat_l; lra).
  split; [split|].
  - apply div_le_div. lra.
  - replace (Rabs (nth o f 0)) with (Rabs (nth o f 0 / 1)) by (f_equal; field). apply div_le_div. lra.
  - split; intros H.
    + apply Rdiv_lt_0_compat; lra.
    + unfold Rdiv. apply Ropp_lt_cancel. rewrite Ropp_0, Ropp_mult_distr_l. apply Rmult_lt_0_compat; [lra|]. apply Rinv_0_lt_compat. lra.
Qed.
Theorem probit_top_zero : forall np J lv f, probit_scaling np J (Some 0%nat) lv f = probit_scaling np J None lv f.
Proof.
  intros np J lv f. apply (nth_ext _ _ 0 0); [now rewrite !probit_length|]. intros o Ho. rewrite probit_length in Ho. rewrite !probit_nth by exact Ho. f_equal.
  assert (I : In o (argsort Rleb 0 f)) by (apply (Permutation_in _ (Rsort_perm f)), in_seq; lia).
  cbn [row_norms]. unfold top_indices, last_k. rewrite fold_set_in by (rewrite ?map_length; assumption).
  now rewrite nth_map_seq by exact Ho.
Qed.
Theorem probit_argmax_refuted : exists np J lv f, nth 1 f 0 < nth 0 f 0 /\ 0 < nth 1 f 0 /\ nth 0 (probit_scaling np J None lv f) 0 < nth 1 (probit_scaling np J None lv f) 0.
Proof.
  exists 1%nat, (fun o _ => if (o =? 0)%nat then 3 else 0), 0, [2; 1]. cbn [nth]. split; [lra|]. split; [lra|].
  rewrite !probit_full by (cbn; lia). cbn [nth]. unfold inner. rewrite !rover_S, !rover_0. cbn [Nat.eqb]. rewrite exp_0.
  pose proof PI_RGT_0 as HP. assert (3 < PI) by (pose proof PI_ineq 1; cbn in *; pose proof PI2_3_2; lra).
  replace (1 / (1 + PI / 8 * 1 * (0 + 0 * 0))) with 1 by field. apply (Rmult_lt_reg_r (1 + PI / 8 * 1 * (0 + 3 * 3))); [nra|].
  unfold Rdiv at 1. rewrite Rmult_assoc, Rinv_l by nra. nra.
Qed.
