(** Properties C113-C116: configuration objects and stored states of the fit methods. *)
From Coq Require Import List Arith Lia Bool String.
From Verif Require Import Lib NestedModel RepoModel RepoSpec FitModel FitSpec FitCases FitProofs FitProofs2 FitProofs3 FitProofs4 FitProofs5.
Import ListNotations.
Open Scope list_scope.
Local Notation length := List.length.

(** ==== C113: what the trainer of a fit is given ==== *)

(** the optimizer of the configuration, if no SGMCMC fit used a configuration with the same
    optimizer object *)
Theorem C113_own_optimizer : forall n es t k c o cbs m, program n es -> optimizes k -> nth_error (asked_configs n es) c = Some (o, cbs) ->
  nth_error (asked_methods es) o = Some m -> (forall t', ~ overwrites n es t' o) ->
  exists g, fst (run_fit t k c (run_events 0 es (heap0 n))) = Some g /\ g_method g = m.
Proof. exact (@fit_own). Qed.
Print Assumptions C113_own_optimizer.

(** otherwise the integrator of the last such fit *)
Theorem C113_integrator_leaks : forall n es t k c o cbs t0, program n es -> optimizes k -> nth_error (asked_configs n es) c = Some (o, cbs) ->
  overwrites n es t0 o -> (forall t', t0 < t' -> ~ overwrites n es t' o) ->
  exists g, fst (run_fit t k c (run_events 0 es (heap0 n))) = Some g /\ g_method g = Integrator t0.
Proof. exact (@fit_leak). Qed.
Print Assumptions C113_integrator_leaks.

(** SGMCMC fits are given their own integrator, and none of the callbacks of the user *)
Theorem C113_sgmcmc : forall n es t k c, program n es -> k = FitSghmc \/ k = FitCyclical -> c < length (asked_configs n es) ->
  fst (run_fit t k c (run_events 0 es (heap0 n))) = Some (mk_given (Integrator t) []).
Proof. exact (@fit_sgmcmc). Qed.
Print Assumptions C113_sgmcmc.

(** callbacks: those of the configuration, and one more for every SNGP fit made with it *)
Theorem C113_callbacks : forall n es t k c o cbs, program n es -> optimizes k -> nth_error (asked_configs n es) c = Some (o, cbs) ->
  exists g, fst (run_fit t k c (run_events 0 es (heap0 n))) = Some g /\
    g_callbacks g = cbs ++ map ResetCovariance (sngp_fits es c) ++ match k with FitSngp => [ResetCovariance t] | _ => [] end.
Proof. exact (@fit_callbacks). Qed.
Print Assumptions C113_callbacks.
Example C113_case_hypotheses : let es := [NewOptimizer 7; NewConfig (Some 1) (Some [UserCallback 3]); NewConfig None None; Fit FitSngp 1; Fit FitCyclical 2; Fit FitSngp 1] in
  program 1 es /\ optimizes FitSngp /\ (forall t, ~ overwrites 1 es t 1) /\ overwrites 1 es 4 0 /\ (forall t, 4 < t -> ~ overwrites 1 es t 0).
Proof.
  cbn zeta. split; [|split; [cbn; tauto|]].
  - intros b e a E. destruct b as [|e1 [|e2 [|e3 [|e4 [|e5 [|e6 b]]]]]]; try (inversion E; subst; cbn; lia). inversion E. now destruct b.
  - split; [intros t (k & c & cbs & E & K & C); destruct t as [|[|[|[|[|[|t]]]]]]; cbn in E; try (destruct t; discriminate); inversion E; subst; cbn in C; intuition congruence|].
    split; [do 3 eexists; split; [reflexivity|]; split; [now right|reflexivity]|].
    intros t T (k & c & cbs & E & K & C). destruct t as [|[|[|[|[|[|t]]]]]]; try lia; cbn in E; [inversion E; subst; intuition congruence|destruct t; discriminate].
Qed.

(** a program that never mentions an optimizer or a configuration: the MAP fit after an SGHMC
    fit is given the integrator and not the default optimizer *)
Theorem C113_default_refuted : exists es, program 2 es /\
  (forall e, In e es -> exists k c, e = Fit k c /\ c < 2) /\
  option_map g_method (fst (run_fit 1 FitMap 1 (run_events 0 es (heap0 2)))) <> Some (Given 0).
Proof.
  exists [Fit FitSghmc 0]. split; [|split].
  - intros [|a [|b l]] e after H; simpl in H; inversion H; subst; simpl; lia.
  - intros e [<-|[]]. exists FitSghmc, 0. split; [reflexivity|lia].
  - discriminate.
Qed.
Print Assumptions C113_default_refuted.

Example C113_case :
  let es := [NewOptimizer 7; NewConfig (Some 1) (Some [UserCallback 3]); NewConfig None None; Fit FitSngp 1; Fit FitCyclical 2; Fit FitSngp 1] in
  let h := run_events 0 es (heap0 1) in
  fst (run_fit 6 FitMap 1 h) = Some (mk_given (Given 7) [UserCallback 3; ResetCovariance 3; ResetCovariance 5]) /\
  fst (run_fit 6 FitMap 0 h) = Some (mk_given (Integrator 4) []) /\
  fst (run_fit 6 FitSghmc 1 h) = Some (mk_given (Integrator 6) []).
Proof. repeat split. Qed.

(** ==== C114: states of posteriors that hold one state ==== *)

(** a fit returns the end of the training run from its starting state *)
Theorem C114_result : forall V O (init : O -> tree V -> V) g ck o fresh train (w w' : fs V) p p' s,
  fit_single init g ck o fresh train w p = (Ok s, (w', p')) ->
  exists s0, start_state init ck o fresh w p = Ok s0 /\ s = n_final (train s0).
Proof. exact (@fit_result). Qed.
Print Assumptions C114_result.

(** sampling afterwards gives the trained values, wherever the state is stored *)
Theorem C114_sample : forall V O (init : O -> tree V -> V) g ck o fresh train (w w' : fs V) p p' s, ordered w ->
  fit_single init g ck o fresh train w p = (Ok s, (w', p')) -> sample_single init w' p' = Ok (joint_of s).
Proof. exact (@fit_sample). Qed.
Print Assumptions C114_sample.

(** loading the save directory into any posterior gives the same samples *)
Theorem C114_load : forall V O (init : O -> tree V -> V) g ck o fresh train (w w' : fs V) p p' s d, ordered w ->
  fit_single init g ck o fresh train w p = (Ok s, (w', p')) -> k_save ck = Some d ->
  forall p0, exists p1, load_state init d w' p0 = (Ok tt, p1) /\ sample_single init w' p1 = Ok (joint_of s).
Proof. exact (@fit_load). Qed.
Print Assumptions C114_load.

(** a state kept in memory does not depend on the files *)
Theorem C114_memory : forall V O (init : O -> tree V -> V) ck o fresh train (w w' w2 : fs V) p p' s, ordered w ->
  fit_single init DumpState ck o fresh train w p = (Ok s, (w', p')) -> k_dump ck = false -> stored init w2 p' = Ok s.
Proof. exact (@fit_memory). Qed.
Print Assumptions C114_memory.

(** no other directory is changed *)
Theorem C114_other_directories : forall V O (init : O -> tree V -> V) g ck o fresh train (w : fs V) p d, k_save ck <> Some d ->
  dir_files d (fst (snd (fit_single init g ck o fresh train w p))) = dir_files d w.
Proof. exact (@fit_dirs). Qed.
Print Assumptions C114_other_directories.

(** the next fit continues from the trained state, with its own optimizer *)
Theorem C114_resume : forall V O (init : O -> tree V -> V) g ck o fresh train (w w' : fs V) p p' s ck2 o2 fresh2, ordered w ->
  fit_single init g ck o fresh train w p = (Ok s, (w', p')) ->
  (k_restore ck2 = None /\ k_current ck2 = true) \/ (k_restore ck2 = k_save ck /\ k_save ck <> None) ->
  exists s2, start_state init ck2 o2 fresh2 w' p' = Ok s2 /\ continues init s o2 s2.
Proof. exact (@fit_resume). Qed.
Print Assumptions C114_resume.

(** configurations that are rejected *)
Theorem C114_errors : forall V O (init : O -> tree V -> V) g ck o fresh train (w : fs V) p,
  (k_dump ck = true -> k_save ck = None -> fit_single init g ck o fresh train w p = (Err ValueError, (w, p))) /\
  (k_dump ck = false \/ k_save ck <> None ->
   (forall d, k_restore ck = Some d -> empty_dir d w -> fit_single init g ck o fresh train w p = (Err ValueError, (w, p))) /\
   (k_restore ck = None -> k_current ck = true -> p = None -> fit_single init g ck o fresh train w p = (Err AttributeError, (w, p)))).
Proof. exact (@fit_errors). Qed.
Print Assumptions C114_errors.

(** a fit that raises does not change what is sampled, if it does not write where the state is *)
Theorem C114_failed_fit : forall V O (init : O -> tree V -> V) g ck o fresh train (w w' : fs V) p p' e,
  fit_single init g ck o fresh train w p = (Err e, (w', p')) ->
  (forall r d, p = Some r -> r_dir r = Some d -> k_save ck <> Some d) ->
  sample_single init w' p' = sample_single init w p.
Proof. exact (@fit_failed). Qed.
Print Assumptions C114_failed_fit.

(** when a fit raises no exception *)
Theorem C114_succeeds : forall V O (init : O -> tree V -> V) g ck o fresh train (w : fs V) p s0, ordered w ->
  start_state init ck o fresh w p = Ok s0 -> (k_dump ck = false \/ k_save ck <> None) ->
  (forall d, k_save ck = Some d -> forall q v, In q (dir_files d w) -> In v (n_saves (train s0)) -> fst q < s_step (v_state v)) ->
  increasing (map (fun v => s_step (v_state v)) (n_saves (train s0))) ->
  fst (fit_single init g ck o fresh train w p) = Ok (n_final (train s0)).
Proof. exact (@fit_fresh_dir). Qed.
Print Assumptions C114_succeeds.
Example C114_case_succeeds : let n := toy_train 4 true (at_step 0 0) in start_state opt0 (in_dir "a") 1 (Ok (at_step 0 0)) ([] : fs nat) None = Ok (at_step 0 0) /\ k_save (in_dir "a") <> None /\
  increasing (map (fun v => s_step (v_state v)) (n_saves n)) /\ n_saves n <> [].
Proof. cbn zeta. split; [vm_compute; reflexivity|]. split; [discriminate|]. split; [|discriminate]. cbn. repeat constructor. Qed.

(** fitting again into the directory of an earlier fit, with periodic checkpoints, raises *)
Theorem C114_same_directory_raises : forall V O (init : O -> tree V -> V) g ck o fresh train (w w' : fs V) p p' s d g2 ck2 o2 fresh2 train2 p2 s2 v vs, ordered w ->
  fit_single init g ck o fresh train w p = (Ok s, (w', p')) -> k_save ck = Some d -> k_save ck2 = Some d ->
  start_state init ck2 o2 fresh2 w' p2 = Ok s2 -> n_saves (train2 s2) = v :: vs -> v_force v = false -> s_step (v_state v) <= s_step s ->
  exists p3, fit_single init g2 ck2 o2 fresh2 train2 w' p2 = (Err RuntimeError, (w', p3)).
Proof. exact (@fit_same_dir). Qed.
Print Assumptions C114_same_directory_raises.

(** save_state and load_state *)
Theorem C114_save_load : forall V O (init : O -> tree V -> V) d keep (w w' : fs V) p, ordered w ->
  save_state init d keep w p = (Ok tt, w') ->
  (forall p0, exists p1, load_state init d w' p0 = (Ok tt, p1) /\ sample_single init w' p1 = sample_single init w p) /\
  (forall d', d' <> d -> dir_files d' w' = dir_files d' w) /\
  sample_single init w' p = sample_single init w p.
Proof. exact (@save_load). Qed.
Print Assumptions C114_save_load.

Theorem C114_nothing_stored : forall V O (init : O -> tree V -> V) d (w : fs V) (p : option (repo V O)) keep, 
  (empty_dir d w -> load_state init d w p = (Err ValueError, p)) /\ save_state init d keep w None = (Err ValueError, w) /\
  sample_single init w None = Err AttributeError.
Proof. exact (@load_none). Qed.
Print Assumptions C114_nothing_stored.

Example C114_case :
  let w0 : fs nat := [] in
  let f1 := fit_single opt0 DumpState (in_dir "a") 1 (Ok (at_step 0 0)) (toy_train 4 true) w0 None in
  let w1 := fst (snd f1) in let p1 := snd (snd f1) in
  let f2 := fit_single opt0 DumpState (again None) 2 (Ok (at_step 0 0)) (toy_train 6 true) w1 p1 in
  ordered w0 /\ fst f1 = Ok (at_step 10 4) /\
  sample_single opt0 w1 p1 = Ok (mk_joint (Dict [("w"%string, Leaf 4)]) None None None) /\
  fst (fit_single opt0 DumpState (in_dir "a") 1 (Ok (at_step 0 0)) (toy_train 5 true) w1 p1) = Err RuntimeError /\
  fst f2 = Ok (at_step 20 6) /\ fst (snd f2) = w1 /\
  sample_single opt0 w1 (snd (snd f2)) = Ok (mk_joint (Dict [("w"%string, Leaf 6)]) None None None).
Proof. split; [exact ordered_nil|]. repeat split. Qed.

(** ==== C115: deep ensembles ==== *)

(** as many members as asked for, each the end of its own training run *)
Theorem C115_result : forall V O (init : O -> tree V -> V) ck o size fresh train (w w' : fs V) p p' ss, ordered w ->
  (forall rs, p = Some rs -> length rs = size) -> ens_fit init ck o size fresh train w p = (Ok ss, (w', p')) ->
  length ss = size /\
  forall j s, nth_error ss j = Some s ->
    exists s0, fst (ens_start init ck o fresh j w (ens_repos ck size p)) = Ok s0 /\ s = n_final (train j s0).
Proof. exact (@ens_result). Qed.
Print Assumptions C115_result.

(** sampling member [j] gives its trained values *)
Theorem C115_sample : forall V O (init : O -> tree V -> V) ck o size fresh train (w w' : fs V) p p' ss, ordered w ->
  (forall rs, p = Some rs -> length rs = size) -> ens_fit init ck o size fresh train w p = (Ok ss, (w', p')) ->
  forall j s, nth_error ss j = Some s -> sample_member init w' p' j = Ok (joint_of s).
Proof. exact (@ens_sample). Qed.
Print Assumptions C115_sample.

(** and so does loading the save directory *)
Theorem C115_load : forall V O (init : O -> tree V -> V) ck o size fresh train (w w' : fs V) p p' ss d, ordered w ->
  (forall rs, p = Some rs -> length rs = size) -> ens_fit init ck o size fresh train w p = (Ok ss, (w', p')) ->
  k_save ck = Some d -> 0 < size ->
  forall p0, exists p1, ens_load init size d w' p0 = (Ok tt, p1) /\
  forall j s, nth_error ss j = Some s -> sample_member init w' p1 j = Ok (joint_of s).
Proof. exact (@ens_load_sample). Qed.
Print Assumptions C115_load.

(** every member continues from its own state *)
Theorem C115_resume : forall V O (init : O -> tree V -> V) ck o size fresh train (w w' : fs V) p p' ss ck2 o2 fresh2, ordered w ->
  (forall rs, p = Some rs -> length rs = size) -> ens_fit init ck o size fresh train w p = (Ok ss, (w', p')) ->
  (k_restore ck2 = None /\ k_current ck2 = true /\ (forall i, member_place ck2 i = member_place ck i)) \/
  (k_restore ck2 = k_save ck /\ k_save ck <> None) ->
  forall j s, nth_error ss j = Some s ->
    exists s2, fst (ens_start init ck2 o2 fresh2 j w' (ens_repos ck2 size p')) = Ok s2 /\ continues init s o2 s2.
Proof. exact (@ens_resume). Qed.
Print Assumptions C115_resume.

(** continuing with another kind of storage raises, and the trained members cannot be sampled
    any more *)
Theorem C115_changed_storage_refuted : forall V O (init : O -> tree V -> V) ck o size fresh train (w w' : fs V) p p' ss ck2 o2 fresh2 train2, ordered w ->
  (forall rs, p = Some rs -> length rs = size) -> ens_fit init ck o size fresh train w p = (Ok ss, (w', p')) -> 0 < size ->
  k_restore ck2 = None -> k_current ck2 = true ->
  (k_dump ck = false /\ k_dump ck2 = true /\ exists d, k_save ck2 = Some d /\ empty_dir (member_dir d 0) w') \/
  (k_dump ck = true /\ k_dump ck2 = false /\ forall rs r, p = Some rs -> In r rs -> r_mem r = None) ->
  exists p2, ens_fit init ck2 o2 size fresh2 train2 w' p' = (Err ValueError, (w', p2)) /\
    forall j, sample_member init w' p2 j = Err ValueError.
Proof. exact (@ens_changed). Qed.
Print Assumptions C115_changed_storage_refuted.

(** saving an ensemble that is in memory writes nothing *)
Theorem C115_save_state_refuted : forall V O (init : O -> tree V -> V) ck o size fresh train (w w' : fs V) p p' ss d keep, ordered w ->
  (forall rs, p = Some rs -> length rs = size) -> ens_fit init ck o size fresh train w p = (Ok ss, (w', p')) -> k_dump ck = false ->
  fst (snd (ens_save init size d keep w' p')) = w'.
Proof. exact (@ens_save_nowhere). Qed.
Print Assumptions C115_save_state_refuted.

(** configurations and calls that are rejected *)
Theorem C115_errors : forall V O (init : O -> tree V -> V) ck o size fresh train (w : fs V) (p : option (list (repo V O))) keep d,
  (k_dump ck = true -> k_save ck = None -> ens_fit init ck o size fresh train w p = (Err ValueError, (w, p))) /\
  (k_dump ck = false \/ k_save ck <> None -> 1 <= size -> k_restore ck = Some d -> empty_dir (d ++ "/0")%string w -> fst (ens_fit init ck o size fresh train w p) = Err ValueError) /\
  (empty_dir (d ++ "/0")%string w -> ens_load init size d w p = (Err ValueError, p)) /\
  (p = None -> ens_save init size d keep w p = (Err AttributeError, (w, None)) /\ forall j, sample_member init w p j = Err AttributeError).
Proof. exact (@ens_errors). Qed.
Print Assumptions C115_errors.

Example C115_case :
  let w0 : fs nat := [] in
  let f1 := ens_fit opt0 (in_dir "a") 1 2 (fun i => at_step 0 i) (fun i => toy_train (4 + i) true) w0 None in
  let w1 := fst (snd f1) in let p1 := snd (snd f1) in
  let f2 := ens_fit opt0 in_memory 1 2 (fun i => at_step 0 i) (fun i => toy_train (8 + i) false) w1 None in
  fst f1 = Ok [at_step 10 4; at_step 10 5] /\
  sample_member opt0 w1 p1 1 = Ok (mk_joint (Dict [("w"%string, Leaf 5)]) None None None) /\
  fst (ens_fit opt0 (again None) 1 2 (fun i => at_step 0 i) (fun i => toy_train (8 + i) false) w1 p1) = Err ValueError /\
  fst (ens_fit opt0 (again (Some "a"%string)) 1 2 (fun i => at_step 0 i) (fun i => toy_train (8 + i) false) w1 p1) = Ok [at_step 20 8; at_step 20 9] /\
  fst f2 = Ok [at_step 10 8; at_step 10 9] /\
  fst (snd (ens_save opt0 2 "b" 1 w1 (snd (snd f2)))) = w1.
Proof. repeat split. Qed.

(** ==== C116: stochastic gradient MCMC ==== *)

(** a chain starts at step 0 from the values of the state it is given; sampling index [k] gives
    its [k]-th kept sample *)
Theorem C116_sample : forall V O (init : O -> tree V -> V) ck o size ok fresh train (w w' : fs V) p p' s, ordered w ->
  chain_fit init ck o size ok fresh train w p = (Ok s, (w', p')) ->
  exists s0 s1, chain_start init ck o fresh w p = Ok s0 /\
  joint_of s1 = joint_of s0 /\ s_step s1 = 0 /\ s_opt s1 = init o (s_params s0) /\ s_tx s1 = Some o /\
  let n := train s1 in
  s = ch_final n /\ forall k t, nth_error (kept n) k = Some t -> sample_member init w' p' k = Ok (joint_of t).
Proof. exact (@chain_sample). Qed.
Print Assumptions C116_sample.

(** an index for which no sample was kept in this run *)
Theorem C116_missing : forall V O (init : O -> tree V -> V) ck o size ok fresh train (w w' : fs V) p p' s s0 k, ordered w ->
  chain_fit init ck o size ok fresh train w p = (Ok s, (w', p')) -> chain_start init ck o fresh w p = Ok s0 ->
  length (kept (train (chain_init init o s0))) <= k -> k < size ->
  member_state init w' p' k =
    match k_save ck with
    | None => Err ValueError
    | Some d => restore init (member_dir d k) None w
    end.
Proof. exact (@chain_missing). Qed.
Print Assumptions C116_missing.

(** so that samples of an earlier run into the same directory are returned as if they were of
    this run *)
Theorem C116_stale_refuted : forall V O (init : O -> tree V -> V) ck o size fresh train train2 (w w1 w2 : fs V) p p1 p2 s s2 s0 s02 d k t, ordered w ->
  k_save ck = Some d ->
  chain_fit init ck o size true fresh train w p = (Ok s, (w1, p1)) -> chain_start init ck o fresh w p = Ok s0 ->
  nth_error (kept (train (chain_init init o s0))) k = Some t ->
  chain_fit init ck o size true fresh train2 w1 p1 = (Ok s2, (w2, p2)) -> chain_start init ck o fresh w1 p1 = Ok s02 ->
  0 < length (kept (train2 (chain_init init o s02))) <= k ->
  sample_member init w2 p2 k = Ok (joint_of t).
Proof. exact (@chain_stale). Qed.
Print Assumptions C116_stale_refuted.

(** loading the save directory gives the same samples, whether or not dump_state was set *)
Theorem C116_load : forall V O (init : O -> tree V -> V) ck o size ok fresh train (w w' : fs V) p p' s d, ordered w ->
  chain_fit init ck o size ok fresh train w p = (Ok s, (w', p')) -> k_save ck = Some d ->
  forall p0, exists p1, chain_load init size d w' p0 = (Ok tt, p1) /\ forall k, sample_member init w' p1 k = sample_member init w' p' k.
Proof. exact (@chain_load_sample). Qed.
Print Assumptions C116_load.

(** restoring continues from the end of the chain, continuing the current state from the last
    kept sample *)
Theorem C116_resume : forall V O (init : O -> tree V -> V) ck o size ok fresh train (w w' : fs V) p p' s ck2 o2 fresh2, ordered w ->
  chain_fit init ck o size ok fresh train w p = (Ok s, (w', p')) ->
  (k_restore ck2 = k_save ck -> k_save ck <> None -> exists s2, chain_start init ck2 o2 fresh2 w' p' = Ok s2 /\ continues init s o2 s2) /\
  (k_restore ck2 = None -> k_current ck2 = true -> forall s0 t, chain_start init ck o fresh w p = Ok s0 ->
   length (kept (train (chain_init init o s0))) = size -> nth_error (kept (train (chain_init init o s0))) (size - 1) = Some t ->
   exists s2, chain_start init ck2 o2 fresh2 w' p' = Ok s2 /\ continues init t o2 s2).
Proof. exact (@chain_resume). Qed.
Print Assumptions C116_resume.

(** a rejected number of samples loses the samples that were in memory *)
Theorem C116_rejected_loses_samples_refuted : forall V O (init : O -> tree V -> V) ck o size fresh train (w : fs V) p s0,
  bad_config ck = false -> chain_start init ck o fresh w p = Ok s0 -> k_save ck = None ->
  exists p', chain_fit init ck o size false fresh train w p = (Err ValueError, (w, p')) /\
  forall k, 0 < size -> sample_member init w p' k = Err ValueError.
Proof. exact (@chain_rejected). Qed.
Print Assumptions C116_rejected_loses_samples_refuted.

(** saving samples that are in memory writes nothing *)
Theorem C116_save_state_refuted : forall V O (init : O -> tree V -> V) ck o size ok fresh train (w w' : fs V) p p' s d keep, ordered w ->
  chain_fit init ck o size ok fresh train w p = (Ok s, (w', p')) -> k_save ck = None -> fst (snd (ens_save init size d keep w' p')) = w'.
Proof. exact (@chain_save_nowhere). Qed.
Print Assumptions C116_save_state_refuted.

(** configurations and calls that are rejected *)
Theorem C116_errors : forall V O (init : O -> tree V -> V) ck o size ok fresh train (w : fs V) (p : option (list (repo V O))) d,
  (k_dump ck = true -> k_save ck = None -> chain_fit init ck o size ok fresh train w p = (Err ValueError, (w, p))) /\
  (k_dump ck = false \/ k_save ck <> None ->
   (k_restore ck = Some d -> empty_dir (d ++ "/c")%string w -> chain_fit init ck o size ok fresh train w p = (Err ValueError, (w, p))) /\
   (k_restore ck = None -> k_current ck = true -> p = None -> chain_fit init ck o size ok fresh train w p = (Err AttributeError, (w, p)))) /\
  (empty_dir (d ++ "/c")%string w -> chain_load init size d w p = (Err ValueError, p)).
Proof. exact (@chain_errors). Qed.
Print Assumptions C116_errors.

(** the directory c holds the last state *)
Theorem C116_checkpoint : forall V O (init : O -> tree V -> V) ck o size ok fresh train (w w' : fs V) p p' s d, ordered w ->
  chain_fit init ck o size ok fresh train w p = (Ok s, (w', p')) -> k_save ck = Some d ->
  exists t, restore init (d ++ "/c")%string None w' = Ok t /\ joint_of t = joint_of s /\ s_step t = s_step s.
Proof. exact (@chain_checkpoint). Qed.
Print Assumptions C116_checkpoint.

Example C116_case :
  let w0 : fs nat := [] in
  let ck := mk_checkpointer (Some "a"%string) None false 3 false in
  let f1 := chain_fit opt0 ck 1 2 true (at_step 0 0) (toy_chain [4; 6]) w0 None in
  let w1 := fst (snd f1) in let p1 := snd (snd f1) in
  let f2 := chain_fit opt0 ck 1 2 true (at_step 0 0) (toy_chain [8]) w1 p1 in
  let f3 := chain_fit opt0 in_memory 1 2 true (at_step 0 0) (toy_chain [8]) w1 p1 in
  fst f1 = Ok (at_step 10 99) /\
  map (sample_member opt0 w1 p1) [0; 1] = [Ok (joint_of (at_step 0 4)); Ok (joint_of (at_step 0 6))] /\
  map (sample_member opt0 (fst (snd f2)) (snd (snd f2))) [0; 1] = [Ok (joint_of (at_step 0 8)); Ok (joint_of (at_step 0 6))] /\
  map (sample_member opt0 (fst (snd f3)) (snd (snd f3))) [0; 1] = [Ok (joint_of (at_step 0 8)); Err ValueError].
Proof. repeat split. Qed.
