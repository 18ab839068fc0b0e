(** Theorems about utilities: C107-C109. *)
From Coq Require Import List Arith ZArith Lia Bool String Ascii Permutation.
From Verif Require Import Lib NestedModel ApiModel ApiSpec ApiProofs.
From Verif Require Import Lit.
Import ListNotations.
Local Notation length := List.length.
Open Scope list_scope.

(** ---- C107: equality and hash of trainers, jit ---- *)
Theorem C107_equal : forall (C V : Type) (sub : C -> C -> bool) (veq : V -> V -> bool), class_order sub ->
  forall a b : obj C V, NoDup (map fst (attrs a)) -> NoDup (map fst (attrs b)) ->
  (py_eq sub veq a b = true <-> cls a = cls b /\ agree veq (attrs a) (attrs b)).
Proof. exact (@py_eq_agree). Qed.
Print Assumptions C107_equal.
Example C107_case_hypotheses : let a := mk_obj 0 [("lr"%string, 3); ("_step"%string, 1)] in let b := mk_obj 0 [("_step"%string, 9); ("lr"%string, 3)] in
  class_order Nat.eqb /\ NoDup (map fst (attrs a)) /\ NoDup (map fst (attrs b)) /\ cls a = cls b /\ visible (attrs a) = visible (attrs b) /\ py_eq Nat.eqb Nat.eqb a b = true.
Proof. split; [split; [exact Nat.eqb_refl|intros ? ? H _; now apply Nat.eqb_eq]|]. lit. Qed.
Theorem C107_contract : forall (C V H : Type) (sub : C -> C -> bool) (veq : V -> V -> bool) (vhash : V -> H) (thash : list H -> H),
  class_order sub ->
  (forall x, veq x x = true) -> (forall x y, veq x y = veq y x) -> (forall x y z, veq x y = true -> veq y z = true -> veq x z = true) ->
  (forall x y, veq x y = true -> vhash x = vhash y) ->
  forall a b c : obj C V, NoDup (map fst (attrs a)) -> NoDup (map fst (attrs b)) -> NoDup (map fst (attrs c)) ->
  py_eq sub veq a a = true
  /\ py_eq sub veq a b = py_eq sub veq b a
  /\ (py_eq sub veq a b = true -> py_eq sub veq b c = true -> py_eq sub veq a c = true)
  /\ (py_eq sub veq a b = true -> hash vhash thash a = hash vhash thash b).
Proof. exact (@eq_contract). Qed.
Print Assumptions C107_contract.
Example C107_case_equivalence : (forall x, Nat.eqb x x = true) /\ (forall x y, Nat.eqb x y = Nat.eqb y x) /\
  (forall x y z, Nat.eqb x y = true -> Nat.eqb y z = true -> Nat.eqb x z = true) /\ (forall x y, Nat.eqb x y = true -> (x * x = y * y)).
Proof. repeat split; intros; rewrite ?Nat.eqb_refl, ?Nat.eqb_eq in *; subst; auto using Nat.eqb_sym. Qed.
Theorem C107_private_ignored : forall (C V H : Type) (sub : C -> C -> bool) (veq : V -> V -> bool) (vhash : V -> H) (thash : list H -> H),
  class_order sub -> (forall x, veq x x = true) -> forall a b : obj C V,
  NoDup (map fst (attrs a)) -> NoDup (map fst (attrs b)) -> cls a = cls b -> visible (attrs a) = visible (attrs b) ->
  py_eq sub veq a b = true /\ hash vhash thash a = hash vhash thash b.
Proof. exact (@private_ignored). Qed.
Print Assumptions C107_private_ignored.
Theorem C107_plain_raises : forall (C V : Type) (sub : C -> C -> bool) (veq : V -> V -> bool) (a : obj C V),
  py_eq_value sub veq a Plain = Err TypeError.
Proof. exact (@plain_raises). Qed.
Print Assumptions C107_plain_raises.
Theorem C107_method_asymmetric : exists (sub : bool -> bool -> bool) (a b : obj bool nat), class_order sub
  /\ NoDup (map fst (attrs a)) /\ NoDup (map fst (attrs b))
  /\ eq_method sub Nat.eqb a (Obj b) = Ok true /\ eq_method sub Nat.eqb b (Obj a) = Ok false.
Proof. exact (@method_asymmetric). Qed.
Print Assumptions C107_method_asymmetric.
Theorem C107_order_matters : exists (sub : bool -> bool -> bool) (a b : obj bool nat), class_order sub
  /\ NoDup (map fst (attrs a)) /\ NoDup (map fst (attrs b)) /\ cls a = cls b
  /\ Permutation (attrs a) (attrs b) /\ py_eq sub Nat.eqb a b = false
  /\ forall (H : Type) (vhash : nat -> H) thash, hash vhash thash a = hash vhash thash b.
Proof. exact (@order_matters). Qed.
Print Assumptions C107_order_matters.
Theorem C107_jit_transparent : forall (C V H : Type) (sub : C -> C -> bool) (veq : V -> V -> bool) (vhash : V -> H) (thash : list H -> H)
  (P : Type) (heqb : H -> H -> bool) (trace : obj C V -> P), class_order sub ->
  (forall a b : obj C V, cls a = cls b -> agree veq (attrs a) (attrs b) -> trace a = trace b) ->
  forall os, Forall (fun o => NoDup (map fst (attrs o))) os ->
  jit_calls sub veq vhash thash heqb trace [] os = map trace os.
Proof. exact (@jit_transparent). Qed.
Print Assumptions C107_jit_transparent.
Example C107_case_trace : (forall a b : obj nat nat, cls a = cls b -> agree Nat.eqb (attrs a) (attrs b) -> cls a + 1 = cls b + 1) /\
  jit_calls Nat.eqb Nat.eqb (fun v => [v]) (@List.concat nat) (fun a b => if list_eq_dec Nat.eq_dec a b then true else false) (fun o => cls o + 1) [] [mk_obj 3 [("lr"%string, 3)]; mk_obj 4 [("lr"%string, 3)]; mk_obj 3 [("lr"%string, 3)]] = [4; 5; 4].
Proof. split; [now intros a b ->|reflexivity]. Qed.
Theorem C107_jit_reuses : forall (C V H : Type) (sub : C -> C -> bool) (veq : V -> V -> bool) (vhash : V -> H) (thash : list H -> H)
  (P : Type) (heqb : H -> H -> bool) (trace : obj C V -> P), class_order sub ->
  (forall h, heqb h h = true) -> (forall x y, veq x y = true -> vhash x = vhash y) ->
  (forall x y z, veq x y = true -> veq y z = true -> veq x z = true) ->
  forall (c : cache C V P) (a b : obj C V), Forall (fun e => NoDup (map fst (attrs (fst e)))) c ->
  NoDup (map fst (attrs a)) -> NoDup (map fst (attrs b)) -> py_eq sub veq a b = true ->
  let c' := snd (jit_call sub veq vhash thash heqb trace c a) in
  snd (jit_call sub veq vhash thash heqb trace c' b) = c'.
Proof. exact (@jit_reuses). Qed.
Print Assumptions C107_jit_reuses.
Theorem C107_jit_refuted : exists (sub : bool -> bool -> bool) (trace : obj bool nat -> option nat) (a b : obj bool nat), class_order sub
  /\ NoDup (map fst (attrs a)) /\ NoDup (map fst (attrs b))
  /\ forall (H : Type) (vhash : nat -> H) thash heqb, (forall h, heqb h h = true) ->
     jit_calls sub Nat.eqb vhash thash heqb trace [] [a; b] = [trace a; trace a] /\ trace a <> trace b.
Proof. exact (@jit_stale). Qed.
Print Assumptions C107_jit_refuted.
Example C107_case_equal :
  let a := mk_obj 0 [("lr"%string, 3); ("_step"%string, 1); ("dir"%string, 7)] in
  let b := mk_obj 0 [("_step"%string, 9); ("lr"%string, 3); ("dir"%string, 7)] in
  let c := mk_obj 1 [("lr"%string, 3); ("dir"%string, 7)] in
  (py_eq Nat.eqb Nat.eqb a b, py_eq Nat.eqb Nat.eqb a c,
   hash (fun v => [v]) (@List.concat nat) a) = (true, false, [7; 3]).
Proof. vm_compute. reflexivity. Qed.

(** ---- C108: which trainer is used ---- *)
Theorem C108_choice : forall devices platforms disable_jit,
  select_trainer devices platforms disable_jit =
    if (devices =? 0)%Z then Ok (if disable_jit then BaseTrainer else JittedTrainer)
    else if (devices =? -1)%Z then Ok (if in_dec string_dec "gpu"%string platforms then MultiDeviceTrainer else JittedTrainer)
    else Err NotImplementedErr.
Proof. exact (@trainer_choice). Qed.
Print Assumptions C108_choice.
Theorem C108_no_jit_only_on_cpu : forall devices platforms disable_jit,
  select_trainer devices platforms disable_jit = Ok BaseTrainer <-> devices = 0%Z /\ disable_jit = true.
Proof. exact (@jit_disabled_only_on_cpu). Qed.
Print Assumptions C108_no_jit_only_on_cpu.
Theorem C108_several_devices_need_gpu : forall devices platforms disable_jit,
  select_trainer devices platforms disable_jit = Ok MultiDeviceTrainer <-> devices = (-1)%Z /\ In "gpu"%string platforms.
Proof. exact (@several_devices_need_gpu). Qed.
Print Assumptions C108_several_devices_need_gpu.
Theorem C108_dynamic_scale : forall d, uses_dynamic_scale d = true <-> d = Some Float16 \/ d = Some BFloat16.
Proof. exact (@dynamic_scale_half). Qed.
Print Assumptions C108_dynamic_scale.
Example C108_case_tpu : select_trainer (-1) ["tpu"; "tpu"; "cpu"]%string true = Ok JittedTrainer
  /\ select_trainer (-1) ["cpu"; "gpu"]%string false = Ok MultiDeviceTrainer /\ select_trainer 2 ["gpu"; "gpu"]%string false = Err NotImplementedErr.
Proof. repeat split. Qed.

(** ---- C109: job configuration ---- *)
Theorem C109_channels : forall base root train test validation, with_slash base root ->
  let path p := match p with Some r => (root ++ r)%string | None => root end in
  let given p := exists r, p = Some r /\ r <> ""%string in
  assoc_get "train" (create_input_channels base train test validation) = Some (path train)
  /\ (forall name p, (name = "test" /\ p = test \/ name = "validation" /\ p = validation)%string ->
       (given p -> assoc_get name (create_input_channels base train test validation) = Some (path p))
       /\ (~ given p -> assoc_get name (create_input_channels base train test validation) = None))
  /\ (forall name d, assoc_get name (create_input_channels base train test validation) = Some d ->
       (name = "train" \/ name = "test" \/ name = "validation")%string).
Proof. exact (@channels_spec). Qed.
Print Assumptions C109_channels.
Example C109_case_root : with_slash "s3://b/" "s3://b/".
Proof. left. split; [now exists "s3://b"%string|reflexivity]. Qed.
Theorem C109_job_name : forall task method model suffix,
  ~ occurs "_"%char (get_base_job_name task method model suffix)
  /\ starts_with "fortuna-" (get_base_job_name task method model suffix)
  /\ (~ occurs "_"%char (task ++ method ++ model) -> suffix = None ->
      get_base_job_name task method model suffix = "fortuna-" ++ task ++ "-" ++ method ++ "-" ++ model)%string.
Proof. exact (@job_name). Qed.
Print Assumptions C109_job_name.
Theorem C109_hparams : forall (A : Type) (task model method : list (string * A)),
  (get_hparams task model method = Err TypeError
   \/ exists d, get_hparams task model method = Ok d
        /\ Permutation d (task ++ model ++ method)
        /\ forall src k v, In src [task; model; method] -> assoc_get k src = Some v -> assoc_get k d = Some v)
  /\ (get_hparams task model method = Err TypeError <-> exists k,
        In k (map fst task) /\ In k (map fst model) \/ In k (map fst task) /\ In k (map fst method) \/ In k (map fst model) /\ In k (map fst method)).
Proof. exact (@hparams_spec). Qed.
Print Assumptions C109_hparams.
Theorem C109_root_exists : forall base, exists root, with_slash base root.
Proof. exact (@with_slash_total). Qed.
Print Assumptions C109_root_exists.
Example C109_case_slash : create_input_channels "s3://b/" None (Some ""%string) (Some "va"%string)
  = [("train", "s3://b/"); ("validation", "s3://b/va")]%string.
Proof. reflexivity. Qed.
Example C109_case_channels : create_input_channels "s3://b" (Some "tr"%string) None (Some "va"%string)
  = [("train", "s3://b/tr"); ("validation", "s3://b/va")]%string.
Proof. reflexivity. Qed.
Example C109_case_name : get_base_job_name "img_cls" "map" "le_net" (Some "v_1"%string) = "fortuna-img-cls-map-le-net-v-1"%string.
Proof. reflexivity. Qed.
Example C109_case_hparams : get_hparams [("a", 1)]%string [("b", 2)]%string [("a", 3)]%string = Err TypeError
  /\ get_hparams [("a", 1)]%string [("b", 2)]%string [("c", 3)]%string = Ok [("a", 1); ("b", 2); ("c", 3)]%string.
Proof. split; reflexivity. Qed.
