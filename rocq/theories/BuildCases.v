(** Concrete cases for the construction and the checks of probabilistic models. *)
From Coq Require Import List Arith ZArith QArith Bool String.
From Verif Require Import Lib SchedModel BuildModel BuildSpec.
Import ListNotations.
Local Notation length := List.length.
Open Scope nat_scope.

Definition bert : network := {| nw_class := "FlaxBertForMaskedLM"; nw_pretrained := true |}.
Definition mlp : network := {| nw_class := "MLP"; nw_pretrained := false |}.
Definition sngp2 : approximator := SngpA [("output_dim"%string, 2%Q); ("ridge_penalty"%string, (1 # 2)%Q)].
Lemma case_parts :
  build_classifier true ["FlaxBertForMaskedLM"%string] bert SwagA = Ok {| pt_manager := HfM; pt_layer := MaskedLayer; pt_posterior := SwagP |} /\
  build_classifier true ["FlaxBertForMaskedLM"%string] mlp SghmcA = Ok {| pt_manager := PlainM; pt_layer := PlainLayer; pt_posterior := SghmcP |} /\
  (exists p, build_classifier false [] mlp sngp2 = Ok p /\ fit_callbacks p = Ok [(1 # 2)%Q]) /\
  (exists p, build_regressor sngp2 = Ok p /\ fit_callbacks p = Err AttributeError) /\
  build_classifier true [] mlp (CustomA "vi") = Err AttributeError.
Proof. repeat split; try reflexivity; eexists; split; reflexivity. Qed.
Lemma case_streams : exists t,
  run [Build 5 0; Build 6 1; Draw 0 JointC; Draw 1 PriorC; Draw 0 PriorC; Draw 0 PredictiveC] empty_world = Ok t /\
  keys_of_model 0 t = rng_gets 3 (Seed 5) /\ keys_of_model 1 t = [Child (Seed 6) 0].
Proof. eexists; repeat split; reflexivity. Qed.

(** a network with parameters 3 and batch statistics 4, and one without statistics *)
Definition normed (_ : key * key) (_ : list nat) : variables nat := [("params"%string, 3); ("batch_stats"%string, 4)].
Definition plain (_ : key * key) (_ : list nat) : variables nat := [("params"%string, 3)].
Definition labels (l : list Z) : loader := {| ld_batches := [(TupleShape [length l; 5], l)]; ld_cached := None |}.
Lemma case_checks :
  snd (class_check (class_init normed) (fun _ _ => Ok (ArrayOut [1; 3])) None (labels [0; 1; 2; 1]%Z) (Seed 0)) = Ok tt /\
  snd (class_check (class_init normed) (fun _ _ => Ok (ArrayOut [1; 3])) None (labels [0; 1; 1]%Z) (Seed 0)) = Err ValueError /\
  fst (class_check (class_init normed) (fun _ _ => Ok (ArrayOut [1; 3])) None (labels [0; 1; 2; 1]%Z) (Seed 0)) = Child (Child (Seed 0) 0) 0 /\
  snd (reg_check (reg_init plain plain) (reg_shapes (fun _ => [1; 2]) (fun _ => [1; 2])) None [(TupleShape [8; 5], [8; 2]); (TupleShape [8; 5], [8; 9])] (Seed 0)) = Ok tt /\
  snd (reg_check (reg_init plain plain) (reg_shapes (fun _ => [1; 2]) (fun _ => [1; 1])) None [(TupleShape [8; 5], [8; 2])] (Seed 0)) = Err ValueError /\
  snd (reg_check (reg_init normed plain) (reg_shapes (fun _ => [1; 2]) (fun _ => [1; 2])) None [(TupleShape [8; 5], [8; 2])] (Seed 0)) = Err ValueError.
Proof. repeat split. Qed.
Lemma case_joint : exists js,
  joint_init (class_init normed) (fun _ _ => Ok (ArrayOut [1; 3])) (Some plain) (TupleShape [5]) (Seed 0) = (Child (Child (Seed 0) 0) 0, Ok js) /\
  js_params js = [("model"%string, 3)] /\ js_mutable js = Some [("model"%string, [("batch_stats"%string, 4)])] /\
  js_calib_params js = [("output_calibrator"%string, Some 3)] /\ js_calib_mutable js = [("output_calibrator"%string, None)].
Proof. eexists; repeat split; reflexivity. Qed.
