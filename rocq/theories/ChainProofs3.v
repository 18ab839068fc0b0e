(** Kept samples and dynamics of whole fits of stochastic gradient samplers. *)
From Coq Require Import List Arith ZArith QArith Bool String Lia Sorted.
From Verif Require Import Lib QuantModel PredModel LikModel CalibModel TrainModel TrainSpec TrainProofs TrainProofs2 TrainProofs3 TrainProofs4 McmcModel McmcSpec McmcProofs DescModel DescSpec DescProofs DescProofs2 DescProofs3 ChainModel ChainSpec ChainProofs ChainProofs2.
Import ListNotations.
Open Scope list_scope.
Local Notation length := List.length.

Theorem reports : forall (P M X T O K G OS Pr Un C : Type) (predict : O -> Pr) (fold_in : nat -> K) (diff : (P -> Q) -> P -> G)
    gadd gdiv zeros_like clip_by (opt : G -> OS -> P -> P * OS) (net : P -> option K -> bool -> option M -> X -> O * M) (log_prior : P -> Q)
    (calibrator : option (bool -> option C -> O -> O * C)) calib_mutable (log_prob : O -> list T -> list Q) n_train n_val
    (metrics : option (list (Pr -> option Un -> list T -> Q))) training_metrics do n monitor cfg bs vs (s s' : tstate P OS G (option M)) kept ms mvs,
  (forall f g p, (forall q, f q = g q) -> diff f p = diff g p) ->
  chain_run P M X T O K G OS Pr Un predict fold_in diff gadd gdiv zeros_like clip_by opt do n
    (chain_setting P M X T O K Pr Un net log_prior calibrator calib_mutable log_prob n_train n_val metrics training_metrics) monitor cfg bs vs s = Ok (s', kept, ms, mvs) ->
  let outputs := fun key train p m x => let o := fst (net p key train m x) in
    match calibrator with None => o | Some f => fst (f false (match calib_mutable with Some c => c | None => None end) o) end in
  let log_joint := fun n o (ys : list T) p => (total_of (log_prob o ys) * (inject_Z (Z.of_nat n) / inject_Z (Z.of_nat (length ys))) + log_prior p)%Q in
  let update := gradient_update diff (fun g => g) opt fold_in
    (fun key p m (b : X * list T) => log_joint n_train (outputs (Some key) true p m (fst b)) (snd b) p)
    (fun key p m b => match m with Some _ => Some (snd (net p (Some key) true m (fst b))) | None => None end) in
  let at_ := after update (step s) (length ms) bs (params s, opt_state s, mutable s) in
  (forall e, (e < length ms)%nat ->
        is_mean_of (map (fun ib => let '(p, _, m) := at_ (e * length bs + fst ib)%nat in
            let o := outputs (Some (fold_in (step s + e * length bs + fst ib)%nat)) true p m (fst (snd ib)) in let ys := snd (snd ib) in
            log_joint n_train o ys p :: match metrics with Some fs => if training_metrics then map (fun f => f (predict o) None ys) fs else [] | None => [] end)
          (combine (seq 0 (length bs)) bs)) (nth e ms []))
  /\ match vs with
     | None => mvs = []
     | Some v => Forall2 (fun e row => is_mean_of (map (fun b => let '(p, _, m) := at_ (S e * length bs)%nat in
            let o := outputs None false p m (fst b) in
            log_joint n_val o (snd b) p :: match metrics with Some fs => map (fun f => f (predict o) None (snd b)) fs | None => [] end) v) row)
          (validation_epochs (eval_every cfg) (length ms)) mvs
     end.
Proof.
  intros. destruct (run_spec _ _ _ _ _ _ _ _ _ _ _ _ _ _ _ _ _ _ _ _ _ _ _ _ _ _ _ _ _ _ _ _ _ _ _ _ _ _ _ H H0) as (_ & _ & _ & _ & A5 & A6 & _).
  split; [exact A5|exact A6].
Qed.

Theorem sghmc_spec : forall (P M X T O K G OS Pr Un C : Type) (predict : O -> Pr) (fold_in : nat -> K) (diff : (P -> Q) -> P -> G)
    gadd gdiv zeros_like clip_by (opt : G -> OS -> P -> P * OS) (net : P -> option K -> bool -> option M -> X -> O * M) (log_prior : P -> Q)
    (calibrator : option (bool -> option C -> O -> O * C)) calib_mutable (log_prob : O -> list T -> list Q) n_train n_val
    (metrics : option (list (Pr -> option Un -> list T -> Q))) training_metrics n thin burnin monitor cfg bs vs (s s' : tstate P OS G (option M)) kept ms mvs,
  (forall f g p, (forall q, f q = g q) -> diff f p = diff g p) -> (0 < thin)%nat ->
  sghmc_fit P M X T O K G OS Pr Un predict fold_in diff gadd gdiv zeros_like clip_by opt n thin burnin
    (chain_setting P M X T O K Pr Un net log_prior calibrator calib_mutable log_prob n_train n_val metrics training_metrics) monitor cfg bs vs s = Ok (s', kept, ms, mvs) ->
  let outputs := fun key p m x => let o := fst (net p (Some key) true m x) in
    match calibrator with None => o | Some f => fst (f false (match calib_mutable with Some c => c | None => None end) o) end in
  let update := gradient_update diff (fun g => g) opt fold_in
    (fun key p m (b : X * list T) => (total_of (log_prob (outputs key p m (fst b)) (snd b)) * (inject_Z (Z.of_nat n_train) / inject_Z (Z.of_nat (length (snd b)))) + log_prior p)%Q)
    (fun key p m b => match m with Some _ => Some (snd (net p (Some key) true m (fst b))) | None => None end) in
  let at_ := after update (step s) (length ms) bs (params s, opt_state s, mutable s) in
  (length ms <= n_epochs cfg)%nat /\ (is_active (stop_config cfg) = false -> length ms = n_epochs cfg)
  /\ (params s', opt_state s', mutable s') = at_ (length ms * length bs)%nat
  /\ length kept = Nat.min n ((length ms * length bs - burnin) / thin)
  /\ (length ms = n_epochs cfg -> length kept = n)
  /\ forall j, (j < length kept)%nat -> exists st, nth_error kept j = Some (j, st) /\ (params st, opt_state st, mutable st) = at_ (due_step burnin thin j).
Proof.
  intros P M X T O K G OS Pr Un C predict fold_in diff gadd gdiv zeros_like clip_by opt net log_prior calibrator calib_mutable log_prob n_train n_val metrics training_metrics n thin burnin monitor cfg bs vs s s' kept ms mvs
    DE HT RUN outputs update at_.
  destruct (run_spec _ _ _ _ _ _ _ _ _ _ _ _ _ _ _ _ _ _ _ _ _ _ _ _ _ _ _ _ _ _ _ _ _ _ _ _ _ _ _ DE RUN) as (A1 & A2 & A3 & _ & _ & _ & MC & states & SR & SL & SN).
  fold at_ in A3. destruct (sghmc_stores _ n thin burnin states HT) as (puts & P1 & P2 & P3). rewrite SR in P1. injection P1 as <-. rewrite SL in P2.
  split; [exact A1|]. split; [exact A2|]. split; [exact A3|]. split; [exact P2|]. split.
  - intros E. rewrite P2, E. rewrite sghmc_accepts in MC by exact HT. destruct (n <=? _)%nat eqn:L in MC; [|discriminate]. apply Nat.leb_le in L. lia.
  - intros j Hj. destruct (P3 j Hj) as (st & Q1 & Q2). exists st. split; [exact Q1|].
    assert (K1 : (due_step burnin thin j - 1 < length ms * length bs)%nat). { rewrite <- SL. apply nth_error_Some. rewrite Q2. discriminate. }
    destruct (SN _ K1) as (st' & R1 & R2 & _). rewrite Q2 in R1. injection R1 as <-. rewrite R2. unfold at_. f_equal. unfold due_step. nia.
Qed.

Theorem cyclical_spec : forall (P M X T O K G OS Pr Un C : Type) (predict : O -> Pr) (fold_in : nat -> K) (diff : (P -> Q) -> P -> G)
    gadd gdiv zeros_like clip_by (opt : G -> OS -> P -> P * OS) (net : P -> option K -> bool -> option M -> X -> O * M) (log_prior : P -> Q)
    (calibrator : option (bool -> option C -> O -> O * C)) calib_mutable (log_prob : O -> list T -> list Q) n_train n_val
    (metrics : option (list (Pr -> option Un -> list T -> Q))) training_metrics n thin L ratio monitor cfg bs vs (s s' : tstate P OS G (option M)) kept ms mvs,
  (forall f g p, (forall q, f q = g q) -> diff f p = diff g p) -> (0 < thin)%nat -> (0 < L)%nat ->
  cyclical_fit P M X T O K G OS Pr Un predict fold_in diff gadd gdiv zeros_like clip_by opt n thin L ratio
    (chain_setting P M X T O K Pr Un net log_prior calibrator calib_mutable log_prob n_train n_val metrics training_metrics) monitor cfg bs vs s = Ok (s', kept, ms, mvs) ->
  let outputs := fun key p m x => let o := fst (net p (Some key) true m x) in
    match calibrator with None => o | Some f => fst (f false (match calib_mutable with Some c => c | None => None end) o) end in
  let update := gradient_update diff (fun g => g) opt fold_in
    (fun key p m (b : X * list T) => (total_of (log_prob (outputs key p m (fst b)) (snd b)) * (inject_Z (Z.of_nat n_train) / inject_Z (Z.of_nat (length (snd b)))) + log_prior p)%Q)
    (fun key p m b => match m with Some _ => Some (snd (net p (Some key) true m (fst b))) | None => None end) in
  let at_ := after update (step s) (length ms) bs (params s, opt_state s, mutable s) in
  (length ms <= n_epochs cfg)%nat /\ (is_active (stop_config cfg) = false -> length ms = n_epochs cfg)
  /\ (params s', opt_state s', mutable s') = at_ (length ms * length bs)%nat
  /\ (length ms = n_epochs cfg -> length kept = n)
  /\ exists steps, length kept = length steps /\ StronglySorted lt steps /\ (length steps <= n)%nat
     /\ (forall k, In k steps -> (1 <= k <= length ms * length bs)%nat /\ cyclical_due L thin ratio k)
     /\ (forall k, (1 <= k <= length ms * length bs)%nat -> cyclical_due L thin ratio k -> In k steps \/ (length steps = n /\ forall k', In k' steps -> (k' < k)%nat))
     /\ forall j k, nth_error steps j = Some k -> exists st, nth_error kept j = Some (j, st) /\ (params st, opt_state st, mutable st) = at_ k.
Proof.
  intros P M X T O K G OS Pr Un C predict fold_in diff gadd gdiv zeros_like clip_by opt net log_prior calibrator calib_mutable log_prob n_train n_val metrics training_metrics n thin L ratio monitor cfg bs vs s s' kept ms mvs
    DE HT HL RUN outputs update at_.
  destruct (run_spec _ _ _ _ _ _ _ _ _ _ _ _ _ _ _ _ _ _ _ _ _ _ _ _ _ _ _ _ _ _ _ _ _ _ _ _ _ _ _ DE RUN) as (A1 & A2 & A3 & _ & _ & _ & MC & states & SR & SL & SN).
  fold at_ in A3. destruct (cyclical_stores _ n thin L ratio states HT HL) as (puts & steps & P1 & [P2 P3] & P4 & P5 & P6 & P7). rewrite SR in P1. injection P1 as <-. rewrite SL in P7.
  split; [exact A1|]. split; [exact A2|]. split; [exact A3|]. split.
  - intros E. destruct (cyclical_accepts n thin L ratio _ _ _ HT HL MC) as [_ CA]. destruct (CA _ states ltac:(rewrite SL, E; reflexivity)) as (p2 & C1 & C2). rewrite SR in C1. injection C1 as <-. apply (f_equal (@List.length nat)) in C2. rewrite map_length, seq_length in C2. exact C2.
  - exists steps. split; [exact P2|]. split; [exact P4|]. split; [exact P5|]. split; [|split; [exact P7|]].
    + intros k Hk. split; [|apply P6; exact Hk]. apply In_nth_error in Hk. destruct Hk as [j Hj]. destruct (P3 j k Hj) as (Z1 & st & _ & Z2). split; [exact Z1|].
      assert (k - 1 < length states)%nat by (apply nth_error_Some; rewrite Z2; discriminate). lia.
    + intros j k Hj. destruct (P3 j k Hj) as (Z1 & st & Z2 & Z3). exists st. split; [exact Z2|].
      assert (K1 : (k - 1 < length ms * length bs)%nat). { rewrite <- SL. apply nth_error_Some. rewrite Z3. discriminate. }
      destruct (SN _ K1) as (st' & R1 & R2 & _). rewrite Z3 in R1. injection R1 as <-. rewrite R2. unfold at_. f_equal. lia.
Qed.
