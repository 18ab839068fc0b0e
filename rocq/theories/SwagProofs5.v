(** Weights of the iterates, and SWAG after a preliminary fit of MAP. *)
From Coq Require Import List Arith ZArith QArith Bool String Lia Lqa.
From Verif Require Import Lib QuantModel ConfRegModel ConfRegProofs PredModel LikModel CalibModel TrainModel TrainSpec TrainProofs TrainProofs2 TrainProofs3 TrainProofs4 McmcModel DescModel DescSpec DescProofs DescProofs2 DescProofs3 SwagModel SwagSpec SwagProofs SwagProofs2 SwagProofs3 SwagProofs4.
Import ListNotations.
Open Scope list_scope.
Local Notation length := List.length.

Theorem weights_of_epochs : forall B e, (0 < B)%nat ->
  (sum_below B (swag_weight B e) == natq ((e + 1) ^ B) - natq (e ^ B))%Q
  /\ (sum_below e (fun e => sum_below B (swag_weight B e)) == natq (e ^ B))%Q.
Proof.
  intros B e HB. assert (W : forall e, (sum_below B (swag_weight B e) == natq ((e + 1) ^ B) - natq (e ^ B))%Q).
  { intros f. pose proof (weights_total B f). lra. }
  split; [apply W|]. induction e as [|e IH].
  - cbn [sum_below]. rewrite Nat.pow_0_l by lia. reflexivity.
  - cbn [sum_below]. rewrite IH, W. replace (e + 1)%nat with (S e) by lia. ring.
Qed.
Theorem weights_first_epoch : forall B i, (i < B)%nat -> (swag_weight B 0 i == if Nat.eqb (S i) B then 1 else 0)%Q.
Proof.
  intros B i Hi. unfold swag_weight. cbn [Nat.add]. rewrite Nat.pow_1_l, Nat.mul_1_r. destruct (Nat.eqb (S i) B) eqn:E.
  - apply Nat.eqb_eq in E. replace (B - 1 - i)%nat with O by lia. reflexivity.
  - apply Nat.eqb_neq in E. rewrite Nat.pow_0_l by lia. reflexivity.
Qed.
Lemma sum_ext n f g : (forall i, (i < n)%nat -> (f i == g i)%Q) -> (sum_below n f == sum_below n g)%Q.
Proof. induction n as [|n IH]; intros H; [reflexivity|]. cbn [sum_below]. rewrite IH by (intros; apply H; lia). rewrite H by lia. reflexivity. Qed.
Theorem one_batch : forall E x, (weighted 1 E x == sum_below E (fun e => x e 0%nat))%Q /\ (natq (E ^ 1) == natq E)%Q.
Proof.
  intros E x. split; [|rewrite Nat.pow_1_r; reflexivity]. unfold weighted. apply sum_ext. intros e _. cbn [sum_below]. unfold swag_weight. cbn [Nat.sub Nat.pow Nat.mul Nat.add]. unfold natq, inject_Z. cbn. ring.
Qed.

Theorem swag_after_map_spec : forall (P M X T O K G OS1 OS Pr Un C : Type) (predict : O -> Pr) (diff : (P -> Q) -> P -> G)
    gadd gdiv zeros_like clip_by (ravel : P -> list Q) rank (fold_in1 fold_in2 : nat -> K) (opt1 : G -> OS1 -> P -> P * OS1) (opt2 : G -> OS -> P -> P * OS) opt_init
    (net : P -> option K -> bool -> option M -> X -> O * M) (log_prior : P -> Q)
    (calibrator : option (bool -> option C -> O -> O * C)) calib_mutable (log_prob : O -> list T -> list Q) n_train n_val
    (metrics1 metrics2 : option (list (Pr -> option Un -> list T -> Q))) training1 training2 h1 h2 monitor1 monitor2 cfg1 cfg2 bs vs (s : tstate P OS1 G (option M)) (s' : tstate P OS G (option M)) stats ms mvs d,
  (forall f g p, (forall q, f q = g q) -> diff f p = diff g p) -> (forall p, length (ravel p) = d) -> (forall a, h_accumulation h1 = Some a -> (a <= 1)%nat) ->
  swag_after_map P M X T O K G OS1 OS Pr Un predict diff gadd gdiv zeros_like clip_by ravel rank fold_in1 fold_in2 opt1 opt2 opt_init h1 h2
    (map_setting P M X T O K Pr Un net log_prior calibrator calib_mutable log_prob n_train n_val metrics1 training1)
    (map_setting P M X T O K Pr Un net log_prior calibrator calib_mutable log_prob n_train n_val metrics2 training2) monitor1 monitor2 cfg1 cfg2 bs vs s = Ok (s', stats, ms, mvs) ->
  let outputs := fun key p m x => let o := fst (net p (Some key) true m x) in
    match calibrator with None => o | Some f => fst (f false (match calib_mutable with Some c => c | None => None end) o) end in
  let objective := fun key p m (b : X * list T) => (- (total_of (log_prob (outputs key p m (fst b)) (snd b)) * (inject_Z (Z.of_nat n_train) / inject_Z (Z.of_nat (length (snd b)))) + log_prior p))%Q in
  let next := fun key p m (b : X * list T) => match m with Some _ => Some (snd (net p (Some key) true m (fst b))) | None => None end in
  let clip1 := fun g => match h_norm h1 with Some b => if Qlt_le_dec 0 b then clip_by b g else g | None => g end in
  let E := n_epochs cfg2 in let B := length bs in
  exists E1, let '(p1, _, m1) := descend (gradient_update diff clip1 opt1 fold_in1 objective next) (step s) (before E1 0 bs) (params s, opt_state s, mutable s) in
    let at2 := fun e i => descend (gradient_update diff (fun g => g) opt2 fold_in2 objective next) 0 (before e i bs) (p1, opt_init p1, m1) in
    (E1 <= n_epochs cfg1)%nat /\ (is_active (stop_config cfg1) = false -> E1 = n_epochs cfg1)
    /\ (params s', opt_state s', mutable s') = at2 E 0%nat /\ length stats = d
    /\ forall j, (j < d)%nat ->
       let x := fun e i => nth j (ravel (fst (fst (at2 e (S i))))) 0%Q in
       exists w, nth_error stats j = Some (Some w)
       /\ (sw_mean w * natq (E ^ B) == weighted B E x)%Q
       /\ ((swag_var w + sw_mean w * sw_mean w) * natq (E ^ B) == weighted B E (fun e i => x e i * x e i))%Q.
Proof.
  intros P M X T O K G OS1 OS Pr Un C predict diff gadd gdiv zeros_like clip_by ravel rank fold_in1 fold_in2 opt1 opt2 opt_init net log_prior calibrator calib_mutable log_prob n_train n_val
    metrics1 metrics2 training1 training2 h1 h2 monitor1 monitor2 cfg1 cfg2 bs vs s s' stats ms mvs d DE Hd HA RUN outputs objective next clip1 E B.
  unfold swag_after_map in RUN. destruct (swag_checks rank (n_epochs cfg2)) as [[]|]; [|discriminate]. cbn [bind] in RUN.
  destruct (fit P M X T O K G OS1 Pr Un predict fold_in1 diff gadd gdiv zeros_like clip_by opt1 FitMAP h1 _ monitor1 cfg1 bs vs s) as [[[s1 ms1] mvs1]|] eqn:FM; [|discriminate]. cbn [bind] in RUN.
  destruct (map_fit P M X T O K G OS1 Pr Un C predict fold_in1 diff gadd gdiv zeros_like clip_by opt1 net log_prior calibrator calib_mutable log_prob n_train n_val metrics1 training1 FitMAP h1 monitor1 cfg1 bs vs s s1 ms1 mvs1 DE (or_introl eq_refl) HA FM)
    as (A1 & A2 & A3 & _ & _).
  destruct (swag_fit_spec P M X T O K G OS Pr Un C predict fold_in2 diff gadd gdiv zeros_like clip_by opt2 ravel net log_prior calibrator calib_mutable log_prob n_train n_val metrics2 training2 rank h2 monitor2 cfg2 bs vs _ s' stats ms mvs d DE Hd RUN)
    as (_ & _ & _ & B4 & _ & B6 & B7).
  exists (length ms1).
  change (params s1, opt_state s1, mutable s1) with (params s1, opt_state s1, mutable s1) in A3.
  change (descend _ (step s) (before (length ms1) 0 bs) _) with (descend (gradient_update diff clip1 opt1 fold_in1 objective next) (step s) (before (length ms1) 0 bs) (params s, opt_state s, mutable s)) in A3.
  rewrite <- A3. intros at2. split; [exact A1|]. split; [exact A2|]. split; [exact B4|]. split; [exact B6|].
  intros j Hj x. destruct (B7 j Hj) as (w & W1 & W2 & W3 & _). exists w. split; [exact W1|]. split; [exact W2|exact W3].
Qed.
