(** Proofs about fits of samplers that continue earlier ones. *)
From Coq Require Import List Arith ZArith QArith Bool String Sorted Lia.
From Verif Require Import Lib TrainModel TrainSpec TrainProofs4 McmcModel McmcSpec DescModel DescSpec ChainModel ChainSpec ChainProofs3 ChainContModel ChainContSpec.
Import ListNotations.
Open Scope list_scope.
Local Notation length := List.length.

Section S.
Context {P M X T O K G OS Pr Un C : Type}.
Variable predict : O -> Pr.
Variable diff : (P -> Q) -> P -> G.
Variable gadd : G -> G -> G.
Variable gdiv : G -> nat -> G.
Variable zeros_like : G -> G.
Variable clip_by : Q -> G -> G.
Notation args := (chain_args P M X T O K G OS Pr Un).
Notation stored := (kept_chain P M G OS).
Notation fits := (chain_fits P M X T O K G OS Pr Un predict diff gadd gdiv zeros_like clip_by).
Notation continue := (continue_chain P M X T O K G OS Pr Un predict diff gadd gdiv zeros_like clip_by).

Lemma chain_fits_app sm l : forall l' k, fits sm (l ++ l') k = bind (fits sm l k) (fits sm l').
Proof.
  induction l as [|a l IH]; intros l' k; [reflexivity|]. cbn [app chain_fits].
  destruct (continue sm a k) as [s|e]; cbn [bind]; [apply IH|reflexivity].
Qed.

Lemma chain_from_start n file (k : stored) s : chain_from P M G OS n file k = Ok s -> start_of n file k s.
Proof.
  unfold chain_from, start_of. destruct file; [intros E; injection E as <-; reflexivity|]. destruct n as [|j]; [discriminate|].
  destruct (find _ _) as [[i it]|] eqn:F; [|discriminate]. intros E. injection E as <-. apply find_some in F. destruct F as [F1 F2].
  apply Nat.eqb_eq in F2. cbn in F2. subst i. exists j. split; [reflexivity|exact F1].
Qed.

Theorem last_sghmc (net : P -> option K -> bool -> option M -> X -> O * M) (log_prior : P -> Q)
    (calibrator : option (bool -> option C -> O -> O * C)) calib_mutable (log_prob : O -> list T -> list Q) n_train n_val
    (metrics : option (list (Pr -> option Un -> list T -> Q))) training_metrics n thin burnin (l : list args) (a : args) (k k' : stored) :
  (forall f g p, (forall q, f q = g q) -> diff f p = diff g p) -> (0 < thin)%nat ->
  ca_setting a = chain_setting P M X T O K Pr Un net log_prior calibrator calib_mutable log_prob n_train n_val metrics training_metrics ->
  fits (Sghmc n thin burnin) (l ++ [a]) k = Ok k' ->
  exists k1 s1 epochs, fits (Sghmc n thin burnin) l k = Ok k1 /\ start_of n (ca_file a) k1 s1 /\
  let outputs := fun key p m x => let o := fst (net p (Some key) true m x) in
    match calibrator with None => o | Some f => fst (f false (match calib_mutable with Some c => c | None => None end) o) end in
  let update := gradient_update diff (fun g => g) (ca_opt a) (ca_keys a)
    (fun key p m (b : X * list T) => (total_of (log_prob (outputs key p m (fst b)) (snd b)) * (inject_Z (Z.of_nat n_train) / inject_Z (Z.of_nat (length (snd b)))) + log_prior p)%Q)
    (fun key p m b => match m with Some _ => Some (snd (net p (Some key) true m (fst b))) | None => None end) in
  let B := length (ca_batches a) in
  let at_ := after update 0 epochs (ca_batches a) (params s1, ca_init a (params s1), mutable s1) in
  let s' := kc_end k' in let kept := kc_samples k' in
  (epochs <= n_epochs (ca_cfg a))%nat /\ (is_active (stop_config (ca_cfg a)) = false -> epochs = n_epochs (ca_cfg a))
  /\ (params s', opt_state s', mutable s') = at_ (epochs * B)%nat
  /\ length kept = Nat.min n ((epochs * B - burnin) / thin)
  /\ (epochs = n_epochs (ca_cfg a) -> length kept = n)
  /\ forall j, (j < length kept)%nat -> exists st, nth_error kept j = Some (j, st) /\ (params st, opt_state st, mutable st) = at_ (due_step burnin thin j).
Proof.
  intros HD HT HS H. rewrite chain_fits_app in H. destruct (fits _ l k) as [k1|e] eqn:E1; cbn [bind] in H; [|discriminate].
  cbn [chain_fits] in H. unfold continue_chain in H. cbn [n_kept] in H.
  destruct (chain_from _ _ _ _ n (ca_file a) k1) as [s1|e] eqn:E2; cbn [bind] in H; [|discriminate].
  unfold run_sampler in H. rewrite HS in H.
  lazymatch type of H with bind (bind ?x _) _ = _ => destruct x as [[[[s' kept] ms] mvs]|e] eqn:F end; cbn [bind] in H; [|discriminate].
  injection H as <-. exists k1, s1, (length ms). split; [reflexivity|]. split; [apply chain_from_start; exact E2|].
  eapply sghmc_spec in F; eauto.
Qed.

Theorem last_cyclical (net : P -> option K -> bool -> option M -> X -> O * M) (log_prior : P -> Q)
    (calibrator : option (bool -> option C -> O -> O * C)) calib_mutable (log_prob : O -> list T -> list Q) n_train n_val
    (metrics : option (list (Pr -> option Un -> list T -> Q))) training_metrics n thin L ratio (l : list args) (a : args) (k k' : stored) :
  (forall f g p, (forall q, f q = g q) -> diff f p = diff g p) -> (0 < thin)%nat -> (0 < L)%nat ->
  ca_setting a = chain_setting P M X T O K Pr Un net log_prior calibrator calib_mutable log_prob n_train n_val metrics training_metrics ->
  fits (Cyclical n thin L ratio) (l ++ [a]) k = Ok k' ->
  exists k1 s1 epochs, fits (Cyclical n thin L ratio) l k = Ok k1 /\ start_of n (ca_file a) k1 s1 /\
  let outputs := fun key p m x => let o := fst (net p (Some key) true m x) in
    match calibrator with None => o | Some f => fst (f false (match calib_mutable with Some c => c | None => None end) o) end in
  let update := gradient_update diff (fun g => g) (ca_opt a) (ca_keys a)
    (fun key p m (b : X * list T) => (total_of (log_prob (outputs key p m (fst b)) (snd b)) * (inject_Z (Z.of_nat n_train) / inject_Z (Z.of_nat (length (snd b)))) + log_prior p)%Q)
    (fun key p m b => match m with Some _ => Some (snd (net p (Some key) true m (fst b))) | None => None end) in
  let B := length (ca_batches a) in
  let at_ := after update 0 epochs (ca_batches a) (params s1, ca_init a (params s1), mutable s1) in
  let s' := kc_end k' in let kept := kc_samples k' in
  (epochs <= n_epochs (ca_cfg a))%nat /\ (is_active (stop_config (ca_cfg a)) = false -> epochs = n_epochs (ca_cfg a))
  /\ (params s', opt_state s', mutable s') = at_ (epochs * B)%nat
  /\ (epochs = n_epochs (ca_cfg a) -> length kept = n)
  /\ exists steps, length kept = length steps /\ StronglySorted lt steps /\ (length steps <= n)%nat
     /\ (forall i, In i steps -> (1 <= i <= epochs * B)%nat /\ cyclical_due L thin ratio i)
     /\ (forall i, (1 <= i <= epochs * B)%nat -> cyclical_due L thin ratio i -> In i steps \/ (length steps = n /\ forall i', In i' steps -> (i' < i)%nat))
     /\ forall j i, nth_error steps j = Some i -> exists st, nth_error kept j = Some (j, st) /\ (params st, opt_state st, mutable st) = at_ i.
Proof.
  intros HD HT HL HS H. rewrite chain_fits_app in H. destruct (fits _ l k) as [k1|e] eqn:E1; cbn [bind] in H; [|discriminate].
  cbn [chain_fits] in H. unfold continue_chain in H. cbn [n_kept] in H.
  destruct (chain_from _ _ _ _ n (ca_file a) k1) as [s1|e] eqn:E2; cbn [bind] in H; [|discriminate].
  unfold run_sampler in H. rewrite HS in H.
  lazymatch type of H with bind (bind ?x _) _ = _ => destruct x as [[[[s' kept] ms] mvs]|e] eqn:F end; cbn [bind] in H; [|discriminate].
  injection H as <-. exists k1, s1, (length ms). split; [reflexivity|]. split; [apply chain_from_start; exact E2|].
  eapply cyclical_spec in F; eauto.
Qed.

Lemma to_chain_same init (s t : tstate P OS G (option M)) : params s = params t -> mutable s = mutable t ->
  to_chain P M G OS init s = to_chain P M G OS init t.
Proof. intros A B. unfold to_chain. rewrite A, B. reflexivity. Qed.

Lemma find_index {A} (l : list (nat * A)) j : (forall i, (i < length l)%nat -> exists x, nth_error l i = Some (i, x)) ->
  find (fun it => (fst it =? j)%nat) l = nth_error l j.
Proof.
  intros H. destruct (find _ l) as [[i x]|] eqn:F.
  - apply find_some in F. destruct F as [F1 F2]. apply Nat.eqb_eq in F2. cbn in F2. subst i.
    apply In_nth_error in F1. destruct F1 as [q Hq]. assert (L : (q < length l)%nat) by (apply nth_error_Some; rewrite Hq; discriminate).
    destruct (H q L) as [y Hy]. rewrite Hq in Hy. injection Hy as -> ->. rewrite Hq. reflexivity.
  - destruct (nth_error l j) as [[i x]|] eqn:N; [|reflexivity]. exfalso.
    assert (L : (j < length l)%nat) by (apply nth_error_Some; rewrite N; discriminate).
    destruct (H j L) as [y Hy]. rewrite N in Hy. injection Hy as -> ->. apply nth_error_In in N.
    pose proof (find_none _ _ F _ N) as Z. cbn in Z. rewrite Nat.eqb_refl in Z. discriminate.
Qed.

Theorem same_storage (net : P -> option K -> bool -> option M -> X -> O * M) (log_prior : P -> Q)
    (calibrator : option (bool -> option C -> O -> O * C)) calib_mutable (log_prob : O -> list T -> list Q) n_train n_val
    (metrics : option (list (Pr -> option Un -> list T -> Q))) training_metrics n thin burnin (l : list args) (a b : args) (k : stored) :
  (forall f g p, (forall q, f q = g q) -> diff f p = diff g p) -> (0 < thin)%nat -> (0 < n)%nat ->
  ca_setting a = chain_setting P M X T O K Pr Un net log_prior calibrator calib_mutable log_prob n_train n_val metrics training_metrics ->
  is_active (stop_config (ca_cfg a)) = false -> (burnin + n * thin = n_epochs (ca_cfg a) * length (ca_batches a))%nat ->
  fits (Sghmc n thin burnin) (l ++ [a; starting false b]) k = fits (Sghmc n thin burnin) (l ++ [a; starting true b]) k.
Proof.
  intros HD HT HN HS HA HE. change [a; starting false b] with ([a] ++ [starting false b]). change [a; starting true b] with ([a] ++ [starting true b]).
  rewrite !app_assoc, !(chain_fits_app _ (l ++ [a])). destruct (fits _ (l ++ [a]) k) as [k'|e] eqn:F; [|reflexivity]. cbn [bind chain_fits].
  destruct (last_sghmc _ _ _ _ _ _ _ _ _ _ _ _ _ _ _ _ HD HT HS F) as (k1 & s1 & ep & _ & _ & Z). cbv zeta in Z.
  destruct Z as (_ & Z2 & Z3 & _ & Z5 & Z6). specialize (Z2 HA). specialize (Z5 Z2).
  unfold continue_chain. cbn [n_kept starting ca_file ca_init]. destruct n as [|j]; [lia|]. unfold chain_from.
  rewrite find_index by (intros i Hi; destruct (Z6 i Hi) as (st & Y & _); exists st; exact Y).
  destruct (Z6 j ltac:(lia)) as (st & Y1 & Y2). rewrite Y1. cbn [bind snd].
  replace (due_step burnin thin j) with (ep * length (ca_batches a))%nat in Y2 by (unfold due_step; rewrite Z2; nia).
  rewrite <- Z3 in Y2. injection Y2 as Q1 _ Q3. rewrite (to_chain_same _ _ _ Q1 Q3). reflexivity.
Qed.

Theorem stopped_early (net : P -> option K -> bool -> option M -> X -> O * M) (log_prior : P -> Q)
    (calibrator : option (bool -> option C -> O -> O * C)) calib_mutable (log_prob : O -> list T -> list Q) n_train n_val
    (metrics : option (list (Pr -> option Un -> list T -> Q))) training_metrics n thin burnin (l : list args) (a b : args) (k k' : stored) :
  (forall f g p, (forall q, f q = g q) -> diff f p = diff g p) -> (0 < thin)%nat ->
  ca_setting a = chain_setting P M X T O K Pr Un net log_prior calibrator calib_mutable log_prob n_train n_val metrics training_metrics ->
  fits (Sghmc n thin burnin) (l ++ [a]) k = Ok k' -> (length (kc_samples k') < n)%nat ->
  fits (Sghmc n thin burnin) (l ++ [a; starting false b]) k = Err ValueError.
Proof.
  intros HD HT HS F HL. change [a; starting false b] with ([a] ++ [starting false b]). rewrite app_assoc, chain_fits_app, F. cbn [bind chain_fits].
  destruct (last_sghmc _ _ _ _ _ _ _ _ _ _ _ _ _ _ _ _ HD HT HS F) as (k1 & s1 & ep & _ & _ & Z). cbv zeta in Z.
  destruct Z as (_ & _ & _ & _ & _ & Z6). unfold continue_chain. cbn [n_kept starting ca_file ca_init]. destruct n as [|j]; [lia|]. unfold chain_from.
  rewrite find_index by (intros i Hi; destruct (Z6 i Hi) as (st & Y & _); exists st; exact Y).
  rewrite (proj2 (nth_error_None _ j)) by lia. reflexivity.
Qed.

Theorem only_parameters sm (l : list args) (a : args) (k1 k2 : stored) :
  params (kc_end k1) = params (kc_end k2) -> mutable (kc_end k1) = mutable (kc_end k2) ->
  map (fun it => (fst it, params (snd it), mutable (snd it))) (kc_samples k1) = map (fun it => (fst it, params (snd it), mutable (snd it))) (kc_samples k2) ->
  fits sm (a :: l) k1 = fits sm (a :: l) k2.
Proof.
  intros A B D. cbn [chain_fits]. assert (E : continue sm a k1 = continue sm a k2); [|rewrite E; reflexivity].
  unfold continue_chain, chain_from. destruct (ca_file a); [cbn [bind]; rewrite (to_chain_same _ _ _ A B); reflexivity|].
  destruct (n_kept sm) as [|j]; [reflexivity|]. revert D. generalize (kc_samples k1) (kc_samples k2).
  induction l0 as [|[i s] r IH]; intros [|[i' s'] r']; cbn [map]; intros D; try discriminate; [reflexivity|].
  cbn [fst snd] in D. injection D as -> D1 D2 D3. cbn [find fst]. destruct (i' =? j)%nat; [|apply IH; exact D3].
  cbn [bind snd]. rewrite (to_chain_same _ _ _ D1 D2). reflexivity.
Qed.
End S.
