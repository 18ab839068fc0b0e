(** Properties C135 and C136: writing states to checkpoints, reading and converting them. *)
From Coq Require Import List Arith Bool String.
From Verif Require Import Lib NestedModel SerModel SerSpec SerProofs SerProofs2 SerProofs3 SerCases.
Import ListNotations.
Local Notation length := List.length.
Local Open Scope string_scope.

(** C135: a state read back has the values that were written, its own class, and the optimizer
    it is read with; conversions keep parameters and start anew *)
Theorem C135_posterior : forall A O (opt_init : O -> pv A -> pv A) (s : state A O) o,
  (forall o v, proper v -> proper (opt_init o v)) ->
  whole_state s -> named s -> posterior_class (s_cls s) ->
  exists t, posterior_restore opt_init (Checkpoint (save s)) o = Ok (Some t)
    /\ s_cls t = s_cls s /\ s_tx t = o
    /\ same_fields ("grad_accumulated" :: match o with Some _ => ["opt_state"] | None => [] end) s t
    /\ (forall v, field "grad_accumulated" t = Some v -> v = PNone)
    /\ (exists p, field "params" t = Some p /\ frozen_dict p
        /\ match o with Some o' => field "opt_state" t = Some (opt_init o' p) | None => True end)
    /\ (forall k v, In k (collections (s_cls s)) -> field k t = Some v -> v = PNone \/ frozen_dict v)
    /\ whole_state t /\ named t.
Proof. exact (@posterior_round_trip). Qed.
Print Assumptions C135_posterior.
Example C135_case_hypotheses : (forall (o : nat) v, proper v -> proper (toy_opt o v)) /\ (exists m, field "mutable" (toy_state OutputCalibC) = Some m /\ is_dict m).
Proof. split; [intros o v H; repeat constructor; exact H|]. eexists. split; [reflexivity|]. do 2 eexists. reflexivity. Qed.
Theorem C135_calib : forall A O (opt_init : O -> pv A -> pv A) (s : state A O) o,
  (forall o v, proper v -> proper (opt_init o v)) ->
  whole_state s -> s_cls s = CalibC \/ s_cls s = OutputCalibC /\ (exists m, field "mutable" s = Some m /\ is_dict m) ->
  exists t, restore_as opt_init (s_cls s) (Checkpoint (save s)) o = Ok (Some t)
    /\ s_cls t = s_cls s /\ s_tx t = o
    /\ same_fields match o with Some _ => ["opt_state"] | None => [] end s t
    /\ (exists p, field "params" t = Some p /\ frozen_dict p
        /\ match o with Some o' => field "opt_state" t = Some (opt_init o' p) | None => True end)
    /\ (forall k v, In k (collections (s_cls s)) -> field k t = Some v -> v = PNone \/ frozen_dict v)
    /\ whole_state t.
Proof. exact (@calib_round_trip). Qed.
Print Assumptions C135_calib.
Theorem C135_output_by_name : forall A O (opt_init : O -> pv A -> pv A) (s : state A O) o,
  whole_state s -> named s -> s_cls s = OutputCalibC -> (exists m, field "mutable" s = Some m /\ is_dict m) ->
  posterior_restore opt_init (Checkpoint (save s)) o = restore_as opt_init OutputCalibC (Checkpoint (save s)) o.
Proof. exact (@output_by_name). Qed.
Print Assumptions C135_output_by_name.
Theorem C135_no_checkpoint : forall A O (opt_init : O -> pv A -> pv A) (p : place A) o,
  p = Missing \/ p = NoCheckpoint ->
  posterior_restore opt_init p o = Err ValueError
  /\ (forall c, restore_as opt_init c p o = Err ValueError)
  /\ (forall names, restore opt_init names p o = Err ValueError)
  /\ load_check opt_init p = Err ValueError.
Proof. exact (@no_checkpoint). Qed.
Print Assumptions C135_no_checkpoint.
Theorem C135_unknown_name : forall A O (opt_init : O -> pv A -> pv A) names d o v n,
  assoc_get "encoded_name" d = Some (to_state_dict v) -> name_stored n v -> ~ In n (map fst names) ->
  restore opt_init names (Checkpoint d) o = Err KeyError.
Proof. exact (@unknown_name). Qed.
Print Assumptions C135_unknown_name.
Example C135_case_unknown : exists v : pv nat, name_stored "OtherState" v /\ ~ In "OtherState" (map fst train_table).
Proof. eexists. split; [left; reflexivity|]. cbn. intuition discriminate. Qed.
Theorem C135_conversion : forall A O (opt_init : O -> pv A -> pv A) (s : state A O) o c which p m cp cm,
  In c [SwagC; SghmcC; CyclicalC] ->
  field "params" s = Some p -> field "mutable" s = Some m -> field "calib_params" s = Some cp -> field "calib_mutable" s = Some cm ->
  exists t, convert opt_init c s o which = Ok (Some t) /\ s_cls t = c /\ s_tx t = Some o
    /\ field "params" t = Some p /\ field "mutable" t = Some m /\ field "calib_params" t = Some cp /\ field "calib_mutable" t = Some cm
    /\ field "opt_state" t = Some (opt_init o p) /\ field "step" t = Some (PNum 0)
    /\ field "encoded_name" t = Some (default_value c "encoded_name")
    /\ field "_encoded_which_params" t = Some (match which with Some w => w | None => PNone end)
    /\ (forall k v, In k ["dynamic_scale"; "frozen_params"; "grad_accumulated"; "mean"; "std"; "dev"] -> field k t = Some v -> v = PNone)
    /\ map fst (s_fields t) = field_names c.
Proof. exact (@conversion_names). Qed.
Print Assumptions C135_conversion.
Theorem C135_conversion_rejected : forall A O (opt_init : O -> pv A -> pv A) (s : state A O) o c which,
  (exists k, In k ["params"; "mutable"; "calib_params"; "calib_mutable"] /\ field k s = None) ->
  convert opt_init c s o which = Err AttributeError.
Proof. exact (@conversion_rejected). Qed.
Print Assumptions C135_conversion_rejected.
Theorem C135_replace : forall A O (s t : state A O) vs, map fst (s_fields s) = field_names (s_cls s) -> replace s vs = Ok t ->
  s_cls t = s_cls s /\ s_tx t = s_tx s /\ forall k, field k t = match assoc_get k vs with Some v => Some v | None => field k s end.
Proof. exact (@replaced_names). Qed.
Print Assumptions C135_replace.
Theorem C135_replace_unknown : forall A O (s : state A O) vs k v, In (k, v) vs -> ~ In k (field_names (s_cls s)) -> replace s vs = Err TypeError.
Proof. exact (@replace_unknown_names). Qed.
Print Assumptions C135_replace_unknown.
Theorem C135_replace_known : forall A O (s : state A O) vs, (forall k, In k (map fst vs) -> In k (field_names (s_cls s))) -> exists t, replace s vs = Ok t.
Proof. exact (@replace_known_names). Qed.
Print Assumptions C135_replace_known.
Theorem C135_init : forall A O (opt_init : O -> pv A -> pv A) c kw p o,
  c <> TrainC -> assoc_get "params" kw = Some p -> o <> None \/ assoc_get "opt_state" kw <> None \/ c = OutputCalibC ->
  c = CalibC \/ (forall k, In k (map fst kw) -> In k (field_names c) \/ k = "apply_fn" \/ k = "tx") ->
  exists t, init opt_init c o kw = Ok (Some t) /\ s_cls t = c /\ s_tx t = o
    /\ field "opt_state" t = Some (match o, assoc_get "opt_state" kw with Some o, _ => opt_init o p | None, Some v => v | None, None => PNone end)
    /\ field "step" t = Some (match assoc_get "step" kw with Some v => v | None => PNum 0 end)
    /\ (forall k, In k (field_names c) -> k <> "opt_state" -> k <> "step" ->
         field k t = Some (match assoc_get k kw with Some v => v | None => default_value c k end))
    /\ (forall k, ~ In k (field_names c) -> field k t = None).
Proof. exact (@init_makes_names). Qed.
Print Assumptions C135_init.
Theorem C135_init_without_optimizer : forall A O (opt_init : O -> pv A -> pv A) c kw p,
  posterior_class c \/ c = CalibC -> assoc_get "params" kw = Some p -> assoc_get "opt_state" kw = None ->
  init opt_init c None kw = Err AttributeError.
Proof. exact (@init_without_optimizer). Qed.
Print Assumptions C135_init_without_optimizer.
Theorem C135_init_unknown : forall A O (opt_init : O -> pv A -> pv A) c kw p k v o,
  posterior_class c \/ c = OutputCalibC -> assoc_get "params" kw = Some p -> o <> None \/ assoc_get "opt_state" kw <> None ->
  In (k, v) kw -> ~ In k (field_names c) -> ~ In k ["apply_fn"; "tx"] -> init opt_init c o kw = Err TypeError.
Proof. exact (@init_unknown_names). Qed.
Print Assumptions C135_init_unknown.
(** states of output calibrators without mutable variables can be written but not read *)
Theorem C135_output_no_mutable_refuted : forall A O (opt_init : O -> pv A -> pv A) (s : state A O) o,
  whole_state s -> s_cls s = OutputCalibC -> field "mutable" s = Some PNone ->
  restore_as opt_init OutputCalibC (Checkpoint (save s)) o = Err TypeError.
Proof. exact (@output_no_mutable). Qed.
Print Assumptions C135_output_no_mutable_refuted.
(** the wrong reader: posteriors reject states of calibration models with KeyError and output
    calibration models those of posteriors with TypeError, but calibration models take the states
    of posteriors for their own *)
Theorem C135_calib_in_posterior : forall A O (opt_init : O -> pv A -> pv A) kw o o' (s : state A O),
  init opt_init CalibC o kw = Ok (Some s) -> assoc_get "encoded_name" kw = None ->
  posterior_restore opt_init (Checkpoint (save s)) o' = Err KeyError
  /\ load_check opt_init (Checkpoint (save s)) = Err KeyError
  /\ restore opt_init train_table (Checkpoint (save s)) o' = Ok None.
Proof. exact (@calib_state_in_posterior). Qed.
Print Assumptions C135_calib_in_posterior.
Theorem C135_posterior_in_output : forall A O (opt_init : O -> pv A -> pv A) (s : state A O) o,
  whole_state s -> posterior_class (s_cls s) -> restore_as opt_init OutputCalibC (Checkpoint (save s)) o = Err TypeError.
Proof. exact (@posterior_in_output). Qed.
Print Assumptions C135_posterior_in_output.
Theorem C135_output_in_calib : forall A O (opt_init : O -> pv A -> pv A) (s : state A O) o,
  whole_state s -> s_cls s = OutputCalibC -> restore_as opt_init CalibC (Checkpoint (save s)) o = Err KeyError.
Proof. exact (@output_in_calib). Qed.
Print Assumptions C135_output_in_calib.
Theorem C135_posterior_in_calib_refuted : forall A O (opt_init : O -> pv A -> pv A) (s : state A O) o,
  whole_state s -> posterior_class (s_cls s) ->
  exists t, restore_as opt_init CalibC (Checkpoint (save s)) o = Ok (Some t) /\ s_cls t = CalibC
    /\ forall k, In k ["params"; "mutable"; "calib_params"; "calib_mutable"; "step"; "encoded_name"] ->
       exists v w, field k s = Some v /\ field k t = Some w /\ looks_like v w.
Proof. exact (@posterior_in_calib). Qed.
Print Assumptions C135_posterior_in_calib_refuted.

Example C135_case_round_trip :
  match posterior_restore toy_opt (Checkpoint (save toy_scaled)) None with
  | Ok (Some t) => s_cls t = MapC /\ s_tx t = None /\ field "step" t = Some (PNum 5) /\ field "params" t = Some toy_params
      /\ field "opt_state" t = Some (PMap false [("0", PNum 9); ("1", PMap false [("model", PMap false [("w", PArr 3); ("b", PArr 4)])])])
      /\ field "grad_accumulated" t = Some PNone
  | _ => False
  end.
Proof. vm_compute. repeat split. Qed.
Example C135_case_optimizer :
  match posterior_restore toy_opt (Checkpoint (save toy_scaled)) (Some 2) with
  | Ok (Some t) => s_tx t = Some 2 /\ field "step" t = Some (PNum 5) /\ field "opt_state" t = Some (PSeq [PNum 2; toy_params])
  | _ => False
  end.
Proof. vm_compute. repeat split. Qed.
Example C135_case_whole :
  (forall c, In c [PosteriorC; MapC; AdviC; LaplaceC; SwagC; SghmcC; CyclicalC] -> s_cls (toy_state c) = c /\ named (toy_state c))
  /\ field "params" (toy_state OutputCalibC) = Some toy_params.
Proof.
  split; [|reflexivity]. intros c I. cbn in I.
  repeat (destruct I as [<-|I]; [split; [reflexivity|]; eexists; split; [reflexivity|]; left; reflexivity|]). destruct I.
Qed.
Example C135_case_half_precision : whole_state toy_scaled /\ named toy_scaled /\ s_cls toy_scaled = MapC.
Proof. split; [exact toy_scaled_whole|]. split; [|reflexivity]. eexists. split; [reflexivity|]. left. reflexivity. Qed.
Example C135_case_convert :
  match convert toy_opt SwagC toy_scaled 7 None with
  | Ok (Some t) => s_cls t = SwagC /\ field "params" t = Some toy_params /\ field "step" t = Some (PNum 0) /\ field "dynamic_scale" t = Some PNone
      /\ field "opt_state" t = Some (PSeq [PNum 7; toy_params])
  | _ => False
  end
  /\ convert toy_opt SwagC (toy_state OutputCalibC) 7 None = Err AttributeError.
Proof. vm_compute. repeat split. Qed.
Example C135_case_readers :
  posterior_restore toy_opt (Checkpoint (save (toy_state CalibC))) None = Err KeyError
  /\ restore_as toy_opt OutputCalibC (Checkpoint (save (toy_state MapC))) None = Err TypeError
  /\ restore_as toy_opt CalibC (Checkpoint (save (toy_state OutputCalibC))) None = Err KeyError
  /\ restore toy_opt train_table (Checkpoint (save (toy_state CalibC))) None = Ok None
  /\ init toy_opt PosteriorC (Some 1) [("params", toy_params); ("calibrated", PNone)] = Err TypeError
  /\ init toy_opt MapC None [("params", toy_params)] = Err AttributeError.
Proof. vm_compute. repeat split. Qed.

(** C136: resuming repeatedly *)
Theorem C136_short_names : forall A O (opt_init : O -> pv A -> pv A) events (s : state A O),
  (forall o v, proper v -> proper (opt_init o v)) ->
  whole_state s -> named s -> posterior_class (s_cls s) -> String.length (class_name (s_cls s)) <= 10 ->
  exists t, live opt_init events s = Ok t /\ s_cls t = s_cls s /\ whole_state t /\ named t
    /\ same_fields ["grad_accumulated"; "opt_state"] s t
    /\ ((forall o, ~ In (Resume (Some o)) events) -> same_fields ["grad_accumulated"] s t)
    /\ (events = repeat Step (length events) -> same_fields [] s t).
Proof. exact (@short_names). Qed.
Print Assumptions C136_short_names.
Example C136_case_hypotheses : (forall (o : nat) v, proper v -> proper (toy_opt o v)) /\ whole_state toy_scaled /\ named toy_scaled /\ posterior_class (s_cls toy_scaled) /\ String.length (class_name (s_cls toy_scaled)) <= 10.
Proof.
  split; [intros o v H; repeat constructor; exact H|]. split; [exact toy_scaled_whole|]. split; [eexists; split; [reflexivity|left; reflexivity]|]. split; [intros H; vm_compute in H; intuition discriminate|]. apply Nat.leb_le. reflexivity.
Qed.
Theorem C136_long_names_once : forall A O (opt_init : O -> pv A -> pv A) (s : state A O) n os,
  (forall o v, proper v -> proper (opt_init o v)) ->
  whole_state s -> posterior_class (s_cls s) -> field "encoded_name" s = Some (PSeq (map PNum (to_codes (class_name (s_cls s))))) ->
  exists t, live opt_init (repeat Step n ++ map Resume os)%list s = Ok t /\ s_cls t = s_cls s /\ same_fields ["grad_accumulated"; "opt_state"] s t.
Proof. exact (@long_names_once). Qed.
Print Assumptions C136_long_names_once.
Theorem C136_plain_gradient : forall A O (opt_init : O -> pv A -> pv A) events (s t : state A O),
  (forall o v, proper v -> proper (opt_init o v)) ->
  whole_state s -> named s -> posterior_class (s_cls s) -> String.length (class_name (s_cls s)) <= 10 ->
  field "dynamic_scale" s = Some PNone -> live opt_init events s = Ok t -> gradient_function t = Ok PlainGradient.
Proof. exact (@scale_kept_plain). Qed.
Print Assumptions C136_plain_gradient.
(** names of more than ten characters are lost by a training step after resuming; this is so for
    the states of output calibrators, which probabilistic models calibrate *)
Theorem C136_long_names_refuted : forall A O (opt_init : O -> pv A -> pv A) (s : state A O) o o',
  whole_state s -> named s -> 10 < String.length (class_name (s_cls s)) ->
  posterior_class (s_cls s) \/ s_cls s = OutputCalibC /\ (exists m, field "mutable" s = Some m /\ is_dict m) ->
  (exists t, live opt_init [Resume o] s = Ok t) /\ live opt_init [Resume o; Step; Resume o'] s = Err KeyError.
Proof. exact (@long_names_lost). Qed.
Print Assumptions C136_long_names_refuted.
(** training with half precision cannot be resumed *)
Theorem C136_dynamic_scale_refuted : forall A O (opt_init : O -> pv A -> pv A) (s : state A O) o name kvs,
  whole_state s -> named s -> posterior_class (s_cls s) -> field "dynamic_scale" s = Some (PObj name kvs) ->
  gradient_function s = Ok ScaledGradient
  /\ exists t, live opt_init [Resume o] s = Ok t /\ gradient_function t = Err AttributeError.
Proof. exact (@scale_broken). Qed.
Print Assumptions C136_dynamic_scale_refuted.

Example C136_case_map :
  match live toy_opt [Step; Resume (Some 1); Step; Step; Resume None; Step; Resume (Some 4); Step] (toy_state MapC) with
  | Ok t => s_cls t = MapC /\ field "step" t = Some (PNum 0)
      /\ field "params" t = Some (PMap true [("model", PMap false [("b", PArr 4); ("w", PArr 3)])])
  | Err _ => False
  end.
Proof. vm_compute. repeat split. Qed.
Example C136_case_output_calibrator :
  live toy_opt [Step; Resume (Some 1); Step; Resume (Some 1)] (toy_state OutputCalibC) = Err KeyError
  /\ map (fun c => (class_name c, 10 <? String.length (class_name c)))%nat [MapC; AdviC; SwagC; SghmcC; OutputCalibC; PosteriorC; LaplaceC; CyclicalC]
     = [("MAPState", false); ("ADVIState", false); ("SWAGState", false); ("SGHMCState", false);
        ("OutputCalibState", true); ("PosteriorState", true); ("LaplaceState", true); ("CyclicalSGLDState", true)].
Proof. split; reflexivity. Qed.
Example C136_case_half_precision :
  gradient_function toy_scaled = Ok ScaledGradient
  /\ match live toy_opt [Resume (Some 1)] toy_scaled with Ok t => gradient_function t = Err AttributeError | Err _ => False end.
Proof. vm_compute. repeat split. Qed.
