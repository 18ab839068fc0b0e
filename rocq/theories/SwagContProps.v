(** Fits of SWAG that continue earlier ones (C170). *)
From Coq Require Import List Arith ZArith QArith Bool String.
From Verif Require Import Lib QuantModel TrainModel McmcModel DescModel DescSpec DescCases SwagModel SwagSpec SwagCases SwagContModel SwagContProofs SwagContProofs2 SwagContCases.
Import ListNotations.
Open Scope list_scope.
Local Notation length := List.length.

(** After any number of fits the trained state and the statistics are those of the last fit alone: descent
    from the parameters and mutable variables of the fit before it with a new state of the optimizer, from
    step zero, whose iterates are averaged with the weights of C157. *)
Theorem C170_last_fit {P M X T O K G OS Pr Un C : Type} (predict : O -> Pr) (diff : (P -> Q) -> P -> G) gadd gdiv zeros_like clip_by (ravel : P -> list Q) (net : P -> option K -> bool -> option M -> X -> O * M) (log_prior : P -> Q)
    (calibrator : option (bool -> option C -> O -> O * C)) calib_mutable (log_prob : O -> list T -> list Q) n_train n_val
    (metrics : option (list (Pr -> option Un -> list T -> Q))) training_metrics (l : list (swag_args P M X T O K G OS Pr Un)) (a : swag_args P M X T O K G OS Pr Un) (st st' : stored P M G OS) d :
  (forall f g p, (forall q, f q = g q) -> diff f p = diff g p) -> (forall p, length (ravel p) = d) ->
  sa_setting a = map_setting P M X T O K Pr Un net log_prior calibrator calib_mutable log_prob n_train n_val metrics training_metrics ->
  swag_fits P M X T O K G OS Pr Un predict diff gadd gdiv zeros_like clip_by ravel (l ++ [a]) st = Ok st' ->
  exists st1, swag_fits P M X T O K G OS Pr Un predict diff gadd gdiv zeros_like clip_by ravel l st = Ok st1 /\
  let outputs := fun key p m x => let o := fst (net p (Some key) true m x) in
    match calibrator with None => o | Some f => fst (f false (match calib_mutable with Some c => c | None => None end) o) end in
  let update := gradient_update diff (fun g => g) (sa_opt a) (sa_keys a)
    (fun key p m (b : X * list T) => (- (total_of (log_prob (outputs key p m (fst b)) (snd b)) * (inject_Z (Z.of_nat n_train) / inject_Z (Z.of_nat (length (snd b)))) + log_prior p))%Q)
    (fun key p m b => match m with Some _ => Some (snd (net p (Some key) true m (fst b))) | None => None end) in
  let p1 := params (st_train st1) in let m1 := mutable (st_train st1) in
  let bs := sa_batches a in
  let at_ := fun e i => descend update 0 (before e i bs) (p1, sa_init a p1, m1) in
  let E := n_epochs (sa_cfg a) in let B := length bs in let rank := sa_rank a in
  let s' := st_train st' in
  (2 <= rank < E)%nat /\ (0 < B)%nat
  /\ (params s', opt_state s', mutable s') = at_ E 0%nat /\ step s' = (E * B)%nat
  /\ length (st_stats st') = d
  /\ forall j, (j < d)%nat ->
     let x := fun e i => nth j (ravel (fst (fst (at_ e (S i))))) 0%Q in
     exists w, nth_error (st_stats st') j = Some (Some w)
     /\ (sw_mean w * natq (E ^ B) == weighted B E x)%Q
     /\ ((swag_var w + sw_mean w * sw_mean w) * natq (E ^ B) == weighted B E (fun e i => x e i * x e i))%Q
     /\ length (sw_dev w) = rank
     /\ (forall k, (k < rank)%nat -> exists m, let q := (E * B - rank + k)%nat in let e := (q / B)%nat in let i := (q mod B)%nat in
           nth k (sw_dev w) 0%Q = (x e i - m)%Q /\ (0 < e)%nat
           /\ (m * natq (e ^ (B - 1 - i) * (e + 1) ^ S i) == weighted B e x + sum_below (S i) (fun k => swag_weight B e k * x e k))%Q).
Proof. exact (@last_fit P M X T O K G OS Pr Un C predict diff gadd gdiv zeros_like clip_by ravel net log_prior calibrator calib_mutable log_prob n_train n_val metrics training_metrics l a st st' d). Qed.
Print Assumptions C170_last_fit.
Example C170_case_hypotheses : (forall f g p, (forall q, f q = g q) -> t_diff f p = t_diff g p) /\ (forall p : Q, length [p] = 1%nat) /\
  sa_setting (v_args t_opt 2 3 w_batches) = map_setting Q nat Q Q Q nat Q Q t_net (fun p => (- p * p)%Q) (@None (bool -> option nat -> Q -> Q * nat)) None t_log_prob 2 2 (Some [fun p _ ys => (p - nth 0 ys 0)%Q]) true.
Proof. split; [|split; reflexivity]. intros f g p H. unfold t_diff. now rewrite !H. Qed.
Example C170_case_two : v_view (v_fits [v_args t_opt 3 4 w_batch; v_args t_opt 2 3 w_batches] (v_start (Some 0%nat))) =
  Ok ((6979308 # 9765625)%Q, 6%nat, 6%nat, Some 10%nat, [Some ((7710541 # 9765625)%Q, (644833163282 # 95367431640625)%Q, [(259191 # 3906250)%Q; (-731233 # 9765625)%Q])]).
Proof. vm_compute. reflexivity. Qed.

(** Of the state it starts from, a fit only sees parameters and mutable variables: neither the statistics of
    an earlier fit nor the state of its optimizer, its accumulated gradient or its step counter. *)
Theorem C170_only_parameters {P M X T O K G OS Pr Un : Type} (predict : O -> Pr) (diff : (P -> Q) -> P -> G) gadd gdiv zeros_like clip_by (ravel : P -> list Q) (l : list (swag_args P M X T O K G OS Pr Un)) (st st2 : stored P M G OS) : l <> [] ->
  params (st_train st) = params (st_train st2) -> mutable (st_train st) = mutable (st_train st2) ->
  swag_fits P M X T O K G OS Pr Un predict diff gadd gdiv zeros_like clip_by ravel l st = swag_fits P M X T O K G OS Pr Un predict diff gadd gdiv zeros_like clip_by ravel l st2.
Proof. exact (@only_parameters P M X T O K G OS Pr Un predict diff gadd gdiv zeros_like clip_by ravel l st st2). Qed.
Print Assumptions C170_only_parameters.
Example C170_case_only_parameters : let st := {| st_train := {| params := 0%Q; opt_state := 7%nat; step := 5; mutable := Some 0%nat; acc := Some 1%Q |}; st_stats := [Some {| sw_mean := 1; sw_mean_sq := 2; sw_dev := [1%Q] |}] |} in
  v_fits [v_args t_opt 2 3 w_batches] st = v_fits [v_args t_opt 2 3 w_batches] (v_start (Some 0%nat)) /\ is_ok (v_fits [v_args t_opt 2 3 w_batches] st) = true.
Proof. split; vm_compute; reflexivity. Qed.

(** With an optimizer without state and an objective without random numbers, the parameters after two fits
    are those after one fit of as many epochs as both together. *)
Theorem C170_path {P M X T O K G OS Pr Un C : Type} (predict : O -> Pr) (diff : (P -> Q) -> P -> G) gadd gdiv zeros_like clip_by (ravel : P -> list Q) (net : P -> option K -> bool -> option M -> X -> O * M) (log_prior : P -> Q)
    (calibrator : option (bool -> option C -> O -> O * C)) calib_mutable (log_prob : O -> list T -> list Q) n_train n_val
    (metrics : option (list (Pr -> option Un -> list T -> Q))) training_metrics (a b c : swag_args P M X T O K G OS Pr Un) (st s2 s1 : stored P M G OS) :
  (forall f g p, (forall q, f q = g q) -> diff f p = diff g p) -> (forall p p', length (ravel p) = length (ravel p')) ->
  Forall (fun x => sa_setting x = map_setting P M X T O K Pr Un net log_prior calibrator calib_mutable log_prob n_train n_val metrics training_metrics /\
    sa_batches x = sa_batches a /\ sa_opt x = sa_opt a /\
    sa_init x = sa_init a) [a; b; c] ->
  (forall p k k' t m x, net p (Some k) t m x = net p (Some k') t m x) ->
  (forall p q, sa_init a p = sa_init a q) -> (forall g o p, snd (sa_opt a g o p) = o) ->
  n_epochs (sa_cfg c) = (n_epochs (sa_cfg a) + n_epochs (sa_cfg b))%nat ->
  swag_fits P M X T O K G OS Pr Un predict diff gadd gdiv zeros_like clip_by ravel [a; b] st = Ok s2 -> swag_fits P M X T O K G OS Pr Un predict diff gadd gdiv zeros_like clip_by ravel [c] st = Ok s1 ->
  params (st_train s2) = params (st_train s1) /\ mutable (st_train s2) = mutable (st_train s1).
Proof. exact (@path_of_two P M X T O K G OS Pr Un C predict diff gadd gdiv zeros_like clip_by ravel net log_prior calibrator calib_mutable log_prob n_train n_val metrics training_metrics a b c st s2 s1). Qed.
Print Assumptions C170_path.
Example C170_case_path : (forall p q : Q, sa_init (v_args v_opt 2 3 w_batches) p = sa_init (v_args v_opt 2 3 w_batches) q) /\ (forall g o p, snd (v_opt g o p) = o) /\
  (forall p (k k' : nat) t m x, t_net p (Some k) t m x = t_net p (Some k') t m x) /\
  exists s1 s2, v_fits [v_args v_opt 2 3 w_batches; v_args v_opt 3 4 w_batches] (v_start (Some 0%nat)) = Ok s2 /\ v_fits [v_args v_opt 2 7 w_batches] (v_start (Some 0%nat)) = Ok s1 /\
    params (st_train s2) = params (st_train s1) /\ mutable (st_train s1) = Some 14%nat.
Proof. split; [reflexivity|]. split; [reflexivity|]. split; [reflexivity|]. do 2 eexists. split; [vm_compute; reflexivity|]. split; [vm_compute; reflexivity|]. split; reflexivity. Qed.

(** The statistics are not: those of the first fit are forgotten. *)
Theorem C170_forgotten_refuted : exists s1 s2 w1 w2, v_fits [v_args v_opt 2 6 w_batch] (v_start None) = Ok s1 /\ v_fits [v_args v_opt 2 3 w_batch; v_args v_opt 2 3 w_batch] (v_start None) = Ok s2 /\
  params (st_train s1) = params (st_train s2) /\ st_stats s1 = [Some w1] /\ st_stats s2 = [Some w2] /\ ~ (sw_mean w1 == sw_mean w2)%Q /\
  let x := fun n => match v_fits [v_args v_opt 2 n w_batch] (v_start None) with Ok s => params (st_train s) | Err _ => 0%Q end in
  (sw_mean w2 * 3 == x 4%nat + x 5%nat + x 6%nat)%Q.
Proof. exact forgotten. Qed.
Print Assumptions C170_forgotten_refuted.
