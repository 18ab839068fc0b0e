(** Fits of MAP that continue an earlier fit (C169). *)
From Coq Require Import List ZArith String.
From Verif Require Import Lib NestedModel NestedSpec FreezeModel FreezeSpec EnsModel EnsSpec ContModel ContSpec ContProofs EnsCases ContCases.
From Verif Require Import Lit TreeCases.
Import ListNotations.
Open Scope list_scope.
Local Notation length := List.length.

(** A fit that continues an earlier one makes one update for each batch from the parameters, mutable
    variables and step counter of the earlier fit, by the optimizer of its own configuration from a
    new state of it. *)
Theorem C169_continue {V M C B O OS L : Type} (o_init : O -> tree V -> OS) (o_update : O -> tree V -> OS -> tree V -> result (tree V * OS))
    (loss : nat -> tree V -> option M -> C -> B -> nat -> L * option M) (diff : (tree V -> L) -> tree V -> tree V)
    (gadd : tree V -> tree V -> result (tree V)) (gdiv : nat -> tree V -> tree V) (zeros : tree V -> tree V)
  cfg r bs file (s s' : tstate V M C O OS) :
  fc_freeze cfg = None -> fc_accumulation cfg <= 1 -> continue_fit o_init o_update loss diff gadd gdiv zeros cfg r bs file s = Ok s' ->
  descent (o_update (fc_method cfg)) (fc_clip cfg) diff (fun p m b n => loss r p m (t_calib s) b n) bs
    (t_step s, t_params s, o_init (fc_method cfg) (t_params s), t_mutable s) (t_step s', t_params s', t_opt s', t_mutable s') /\ t_calib s' = t_calib s.
Proof. exact (@continue_plain V M C B O OS L o_init o_update loss diff gadd gdiv zeros cfg r bs file  s s'  ). Qed.
Print Assumptions C169_continue.
Example C169_case_continue : exists s, cz_fits cz_growing [cz_args (ze_cfg 1 false 1) [1]%Z false; cz_args (ze_cfg 1 false 1) [1]%Z true] (cz_start 5 7) = Ok s /\
  t_params s = ze_params (-4) 4 /\ t_step s = 2 /\ t_opt s = 1%Z.
Proof. eexists. split; [vm_compute; reflexivity|]. repeat split. Qed.

(** With a freeze function, of the trainable parameters; the others are kept. *)
Theorem C169_continue_frozen {V M C B O OS L : Type} (o_init : O -> tree V -> OS) (o_update : O -> tree V -> OS -> tree V -> result (tree V * OS))
    (loss : nat -> tree V -> option M -> C -> B -> nat -> L * option M) (diff : (tree V -> L) -> tree V -> tree V)
    (gadd : tree V -> tree V -> result (tree V)) (gdiv : nat -> tree V -> tree V) (zeros : tree V -> tree V)
  cfg f r bs file (s s' : tstate V M C O OS) :
  fc_freeze cfg = Some f -> by_path f -> fc_accumulation cfg <= 1 -> keeps_structure (o_update (fc_method cfg)) -> parameters (t_params s) ->
  continue_fit o_init o_update loss diff gadd gdiv zeros cfg r bs file s = Ok s' ->
  exists fr tr tr', (forall q v, leaf_at fr q v <-> leaf_at (t_params s) q v /\ f q v = "frozen"%string) /\
    (forall q v, leaf_at tr q v <-> leaf_at (t_params s) q v /\ f q v = "trainable"%string) /\
    descent (o_update (fc_method cfg)) (fc_clip cfg) diff (fun p m b n => loss r (get_all_params fr p) m (t_calib s) b n) bs
      (t_step s, tr, o_init (fc_method cfg) tr, t_mutable s) (t_step s', tr', t_opt s', t_mutable s') /\
    t_params s' = get_all_params fr tr' /\ t_calib s' = t_calib s /\
    (forall q v, leaf_at (t_params s) q v -> f q v = "frozen"%string -> leaf_at (t_params s') q v) /\
    (forall q v, leaf_at (t_params s) q v -> f q v = "trainable"%string -> exists w, leaf_at tr' q w /\ leaf_at (t_params s') q w).
Proof. exact (@continue_frozen V M C B O OS L o_init o_update loss diff gadd gdiv zeros cfg f r bs file  s s'  ). Qed.
Print Assumptions C169_continue_frozen.
Example C169_case_frozen_hypotheses : exists s, by_path ze_freeze /\ keeps_structure (tgd 2) /\ parameters (t_params (cz_start 5 7)) /\
  continue_fit (fun _ _ => 0%Z) tgd ze_loss tdiff tadd (fun n => tmap (fun x => x / Z.of_nat n)%Z) (tmap (fun _ => 0%Z)) (ze_cfg 2 true 1) 0 [1; 3]%Z true (cz_start 5 7) = Ok s /\ t_params s = ze_params 5 (-33) /\ t_step s = 2.
Proof. eexists. split; [now intros p v w|]. split; [apply tgd_keeps|]. split; [split; [uniq|eexists; reflexivity]|]. split; [vm_compute; reflexivity|]. split; reflexivity. Qed.
Example C169_case_frozen : exists s, cz_fits cz_growing [cz_args (ze_cfg 1 false 1) [1]%Z false; cz_args (ze_cfg 1 true 1) [1; 1]%Z true] (cz_start 5 7) = Ok s /\
  t_step s = 3 /\ t_opt s = 2%Z /\ t_params s = ze_params (-2) 8.
Proof. eexists. split; [vm_compute; reflexivity|]. repeat split. Qed.

(** After any number of fits with different configurations the step counter has counted all batches,
    the parameters have the same paths, and an array that was frozen in all of them is unchanged. *)
Theorem C169_any_number {V M C B O OS L : Type} (o_init : O -> tree V -> OS) (o_update : O -> tree V -> OS -> tree V -> result (tree V * OS))
    (loss : nat -> tree V -> option M -> C -> B -> nat -> L * option M) (diff : (tree V -> L) -> tree V -> tree V)
    (gadd : tree V -> tree V -> result (tree V)) (gdiv : nat -> tree V -> tree V) (zeros : tree V -> tree V)
  (l : list (fit_args V B O)) :
  forall (s s' : tstate V M C O OS), (forall a, In a l -> keeps_structure (o_update (fc_method (a_cfg a)))) -> parameters (t_params s) -> fits o_init o_update loss diff gadd gdiv zeros l s = Ok s' ->
  parameters (t_params s') /\ (forall q, (exists v, leaf_at (t_params s') q v) <-> (exists v, leaf_at (t_params s) q v)) /\
  t_step s' = t_step s + list_sum (map (fun a => length (a_batches a)) l) /\ t_calib s' = t_calib s /\
  (forall q v, leaf_at (t_params s) q v -> (forall a, In a l -> exists f, fc_freeze (a_cfg a) = Some f /\ f q v = "frozen"%string) -> leaf_at (t_params s') q v).
Proof. exact (@fits_kept V M C B O OS L o_init o_update loss diff gadd gdiv zeros l). Qed.
Print Assumptions C169_any_number.
Example C169_case_any_number_hypotheses : exists s, (forall a, In a [cz_args (ze_cfg 1 true 1) [1]%Z false; cz_args (ze_cfg 2 true 2) [1; 1]%Z true] -> keeps_structure (tgd (fc_method (a_cfg a)))) /\
  parameters (t_params (cz_start 5 7)) /\
  fits (fun _ _ => 0%Z) tgd ze_loss tdiff tadd (fun n => tmap (fun x => x / Z.of_nat n)%Z) (tmap (fun _ => 0%Z)) [cz_args (ze_cfg 1 true 1) [1]%Z false; cz_args (ze_cfg 2 true 2) [1; 1]%Z true] (cz_start 5 7) = Ok s /\
  t_step s = 3 /\ t_params s = ze_params 5 (-2).
Proof. eexists. split; [intros a _; apply tgd_keeps|]. split; [split; [uniq|eexists; reflexivity]|]. split; [vm_compute; reflexivity|]. split; reflexivity. Qed.
Example C169_case_any_number : exists s, cz_fits cz_growing [cz_args (ze_cfg 1 true 1) [1]%Z false; cz_args (ze_cfg 2 true 2) [1; 1]%Z true; cz_args (ze_cfg 1 true 1) [3]%Z false] (cz_start 5 7) = Ok s /\
  t_step s = 4 /\ leaf_at (t_params s) ["a"%string] 5%Z /\ leaf_at (t_params s) ["w"%string] (-17)%Z.
Proof. eexists. split; [vm_compute; reflexivity|]. repeat split. Qed.

(** Without gradient accumulation it makes no difference whether states are kept in memory or read
    from their checkpoints. *)
Theorem C169_storage {V M C B O OS L : Type} (o_init : O -> tree V -> OS) (o_update : O -> tree V -> OS -> tree V -> result (tree V * OS))
    (loss : nat -> tree V -> option M -> C -> B -> nat -> L * option M) (diff : (tree V -> L) -> tree V -> tree V)
    (gadd : tree V -> tree V -> result (tree V)) (gdiv : nat -> tree V -> tree V) (zeros : tree V -> tree V)
  (l : list (fit_args V B O)) :
  forall s : tstate V M C O OS, (forall a, In a l -> fc_accumulation (a_cfg a) <= 1) -> t_grad s = None -> fits o_init o_update loss diff gadd gdiv zeros l s = fits o_init o_update loss diff gadd gdiv zeros (map in_memory l) s.
Proof. exact (@storage_irrelevant V M C B O OS L o_init o_update loss diff gadd gdiv zeros l). Qed.
Print Assumptions C169_storage.
Example C169_case_storage : exists s, cz_fits cz_growing [cz_args (ze_cfg 1 false 1) [1]%Z false; cz_args (ze_cfg 1 true 1) [1; 1]%Z true] (cz_start 5 7) = Ok s /\
  cz_fits cz_growing [cz_args (ze_cfg 1 false 1) [1]%Z true; cz_args (ze_cfg 1 true 1) [1; 1]%Z false] (cz_start 5 7) = Ok s.
Proof. eexists. split; vm_compute; reflexivity. Qed.

(** With an optimizer without state and an objective without random numbers, two fits one after the
    other are one fit on the batches of both, also in the middle of accumulating gradients. *)
Theorem C169_as_one {V M C B O OS L : Type} (o_init : O -> tree V -> OS) (o_update : O -> tree V -> OS -> tree V -> result (tree V * OS))
    (loss : nat -> tree V -> option M -> C -> B -> nat -> L * option M) (diff : (tree V -> L) -> tree V -> tree V)
    (gadd : tree V -> tree V -> result (tree V)) (gdiv : nat -> tree V -> tree V) (zeros : tree V -> tree V)
  cfg r r' bs bs' file (s : tstate V M C O OS) :
  fc_freeze cfg = None -> stateless o_init o_update (fc_method cfg) -> loss r' = loss r ->
  fits o_init o_update loss diff gadd gdiv zeros [{| a_cfg := cfg; a_run := r; a_batches := bs; a_file := file |}; {| a_cfg := cfg; a_run := r'; a_batches := bs'; a_file := false |}] s
  = fits o_init o_update loss diff gadd gdiv zeros [{| a_cfg := cfg; a_run := r; a_batches := bs ++ bs'; a_file := file |}] s.
Proof. exact (@fits_as_one V M C B O OS L o_init o_update loss diff gadd gdiv zeros cfg r r' bs bs' file  s  ). Qed.
Print Assumptions C169_as_one.
Example C169_case_as_one : stateless ze_init cz_plain 1%Z /\
  cz_fits cz_plain [cz_args (ze_cfg 1 false 2) [2]%Z false; cz_args (ze_cfg 1 false 2) [4]%Z false] (cz_start 5 7) = cz_fits cz_plain [cz_args (ze_cfg 1 false 2) [2; 4]%Z false] (cz_start 5 7) /\
  is_ok (cz_fits cz_plain [cz_args (ze_cfg 1 false 2) [2; 4]%Z false] (cz_start 5 7)) = true.
Proof. split; [exact cz_stateless|]. split; vm_compute; reflexivity. Qed.

(** When two fits accumulate gradients, continuing from memory with other trainable parameters raises. *)
Theorem C169_accumulated_refuted {V M C B O OS L : Type} (o_init : O -> tree V -> OS) (o_update : O -> tree V -> OS -> tree V -> result (tree V * OS))
    (loss : nat -> tree V -> option M -> C -> B -> nat -> L * option M) (diff : (tree V -> L) -> tree V -> tree V)
    (gadd : tree V -> tree V -> result (tree V)) (gdiv : nat -> tree V -> tree V) (zeros : tree V -> tree V)
  cfg cfg' r r' b bs b' bs' file (s s' : tstate V M C O OS) q v :
  1 < fc_accumulation cfg -> 1 < fc_accumulation cfg' -> (forall l, keeps (diff l)) -> keeps (fc_clip cfg) -> (forall n, keeps (gdiv n)) -> keeps zeros -> adds gadd ->
  keeps_structure (o_update (fc_method cfg)) -> (forall f, fc_freeze cfg = Some f -> by_path f) -> (forall f, fc_freeze cfg' = Some f -> by_path f /\ labelled f (t_params s')) ->
  parameters (t_params s) -> (file = true \/ t_grad s = None) -> continue_fit o_init o_update loss diff gadd gdiv zeros cfg r (b :: bs) file s = Ok s' ->
  leaf_at (t_params s') q v -> ~ (trains cfg q v <-> trains cfg' q v) ->
  continue_fit o_init o_update loss diff gadd gdiv zeros cfg' r' (b' :: bs') false s' = Err ValueError.
Proof. exact (@accumulated_other V M C B O OS L o_init o_update loss diff gadd gdiv zeros cfg cfg' r r' b bs b' bs' file  s s'   q v). Qed.
Print Assumptions C169_accumulated_refuted.
Example C169_case_accumulated_hypotheses : exists s, (forall l, keeps (tdiff l)) /\ keeps (fc_clip (ze_cfg 1 true 2)) /\ keeps (tmap (V := Z) (fun _ => 0%Z)) /\ adds tadd /\ keeps_structure (tgd 1) /\
  by_path ze_freeze /\ by_path cz_other /\ parameters (t_params (cz_start 5 7)) /\
  fits (fun _ _ => 0%Z) tgd ze_loss tdiff tadd (fun n => tmap (fun x => x / Z.of_nat n)%Z) (tmap (fun _ => 0%Z)) [cz_args (ze_cfg 1 true 2) [1]%Z false] (cz_start 5 7) = Ok s /\
  labelled cz_other (t_params s) /\ leaf_at (t_params s) ["a"%string] 5%Z /\ ~ (trains (ze_cfg 1 true 2) ["a"%string] 5%Z <-> trains (cz_cfg_other 2) ["a"%string] 5%Z).
Proof.
  eexists. split; [exact tdiff_keeps|]. split; [now intros t q; cbn; destruct (at_path t q) as [[?|?]|]|]. split; [apply tmap_keeps|]. split; [exact tadd_adds|]. split; [apply tgd_keeps|].
  split; [now intros p v w|]. split; [now intros p v w|]. split; [split; [uniq|eexists; reflexivity]|]. split; [vm_compute; reflexivity|].
  split; [refine (leaves_by _ (fun q v => cz_other q v = "frozen"%string \/ cz_other q v = "trainable"%string) _); repeat (apply Forall_cons; [first [exact I | left; reflexivity | right; reflexivity]|]); apply Forall_nil|].
  split; [reflexivity|]. intros [_ H]. specialize (H eq_refl). discriminate H.
Qed.
Example C169_case_accumulated : exists s, cz_fits cz_plain [cz_args (ze_cfg 1 true 2) [1]%Z false] (cz_start 5 7) = Ok s /\
  cz_fits cz_plain [cz_args (cz_cfg_other 2) [1]%Z false] s = Err ValueError /\ is_ok (cz_fits cz_plain [cz_args (cz_cfg_other 2) [1]%Z true] s) = true.
Proof. eexists. split; [vm_compute; reflexivity|]. split; vm_compute; reflexivity. Qed.

(** Every fit starts the optimizer anew: with an optimizer that has a state, two fits are not one. *)
Theorem C169_reset_refuted : exists cfg s s1 s2, fc_freeze cfg = None /\ fc_accumulation cfg = 1 /\ cz_fits cz_growing [cz_args cfg [1]%Z false; cz_args cfg [1]%Z false] s = Ok s1 /\ cz_fits cz_growing [cz_args cfg [1; 1]%Z false] s = Ok s2 /\
  t_step s1 = t_step s2 /\ t_params s1 <> t_params s2.
Proof. exact reset_refuted. Qed.
Print Assumptions C169_reset_refuted.

(** Read from a checkpoint, gradients accumulated at the end of the earlier fit are lost. *)
Theorem C169_leftover_refuted : exists cfg s s1 s2, fc_freeze cfg = None /\ fc_accumulation cfg = 2 /\ cz_fits cz_plain [cz_args cfg [2]%Z false; cz_args cfg [4]%Z true] s = Ok s1 /\ cz_fits cz_plain [cz_args cfg [2]%Z false; cz_args cfg [4]%Z false] s = Ok s2 /\
  t_step s1 = t_step s2 /\ t_params s1 <> t_params s2.
Proof. exact leftover_refuted. Qed.
Print Assumptions C169_leftover_refuted.
