(** Several calibrations of a calibration model (C178). *)
From Coq Require Import List ZArith String.
From Verif Require Import Lib NestedModel NestedSpec FreezeModel FreezeSpec EnsModel EnsSpec ContModel ContSpec CmRunModel CmRunSpec CmRunProofs EnsCases ContCases TreeCases CmRunCases.
From Verif Require Import Lit.
Import ListNotations.
Open Scope list_scope.
Local Notation length := List.length.
Local Notation concat := List.concat.

(** C178: a calibration goes down the gradients of its loss, one update for each batch, from the step
    counter and the parameters of its checkpoint, else the current ones if asked for, else new ones, by
    a new state of its own optimizer; it fails if there are mutable variables and a batch *)
Theorem C178_descent {V M X T K Out O OS L : Type} (o_init : O -> tree V -> OS) (o_update : O -> tree V -> OS -> tree V -> result (tree V * OS))
    (diff : (tree V -> L) -> tree V -> tree V) (gadd : tree V -> tree V -> result (tree V)) (gdiv : nat -> tree V -> tree V) (zeros : tree V -> tree V)
    (net : tree V -> K -> X -> Out) (key : nat -> nat -> K) (loss_fn : Out -> T -> L)
  (k : cm_call V M X T O OS) r r' : k_freeze k = None -> cm_calibrate o_init o_update diff gadd gdiv zeros net key loss_fn k r = Ok r' ->
  exists s n p m, r' = Some (k_dump k, s) /\ starts k r = Some (n, p, m) /\ (k_batches k = [] \/ m = None) /\ (k_dump k = true -> k_dir k = true) /\
  descent (o_update (k_method k)) (fun g => g) diff (fun q m b i => (loss_fn (net q (key (k_run k) i) (fst b)) (snd b), m)) (k_batches k)
    (n, p, o_init (k_method k) p, m) (t_step s, t_params s, t_opt s, t_mutable s).
Proof. exact (@calibrate_descent V M X T K Out O OS L o_init o_update diff gadd gdiv zeros net key loss_fn k r r'). Qed.
Print Assumptions C178_descent.
Example C178_case_descent : exists s, cq_runs cz_growing ze_diff [cq_call 1 false [(1, 1)]%Z None false false; cq_call 1 false [(1, 1)]%Z None true true] None = Ok (Some (true, s)) /\
  t_params s = ze_params (-4) 4 /\ t_step s = 2 /\ t_opt s = 1%Z.
Proof. eexists. split; [vm_compute; reflexivity|]. repeat split. Qed.
Example C178_case_checkpoint : exists s, cq_runs cz_growing ze_diff [cq_call 1 false [(1, 1)]%Z (Some (Some (cz_start 2 3))) true false] None = Ok (Some (false, s)) /\ t_params s = ze_params (-1) 1.
Proof. eexists. split; [vm_compute; reflexivity|]. repeat split. Qed.
Example C178_case_errors : cq_runs cz_growing ze_diff [cq_call 1 false [(1, 1)]%Z (Some None) true false] None = Err ValueError /\ cq_runs cz_growing ze_diff [cq_call 1 false [(1, 1)]%Z None true false] None = Err AttributeError.
Proof. split; vm_compute; reflexivity. Qed.

(** C178: when the optimizer does not raise, it succeeds exactly when there is a state to start from,
    there are no mutable variables or no batches, and a directory to dump to if asked to dump *)
Theorem C178_succeeds {V M X T K Out O OS L : Type} (o_init : O -> tree V -> OS) (o_update : O -> tree V -> OS -> tree V -> result (tree V * OS))
    (diff : (tree V -> L) -> tree V -> tree V) (gadd : tree V -> tree V -> result (tree V)) (gdiv : nat -> tree V -> tree V) (zeros : tree V -> tree V)
    (net : tree V -> K -> X -> Out) (key : nat -> nat -> K) (loss_fn : Out -> T -> L)
  (k : cm_call V M X T O OS) r : k_freeze k = None -> (forall g os q, exists x, o_update (k_method k) g os q = Ok x) ->
  ((exists r', cm_calibrate o_init o_update diff gadd gdiv zeros net key loss_fn k r = Ok r') <->
   (exists n p m, starts k r = Some (n, p, m) /\ (k_batches k = [] \/ m = None)) /\ (k_dump k = true -> k_dir k = true)).
Proof. exact (@succeeds_exactly V M X T K Out O OS L o_init o_update diff gadd gdiv zeros net key loss_fn k r). Qed.
Print Assumptions C178_succeeds.
Example C178_case_succeeds : exists s, let k := cq_call 1 false [(1, 1)]%Z None false true in k_freeze k = None /\ (forall g os q, exists x, cq_total (k_method k) g os q = Ok x) /\
  cq_runs cq_total ze_diff [k] None = Ok (Some (true, s)) /\ t_params s = ze_params (-2) 2.
Proof. eexists. split; [reflexivity|]. split; [intros; apply cq_total_ok|]. split; [vm_compute; reflexivity|reflexivity]. Qed.

(** C178: with a freeze function this holds for the trainable parameters, and the others are kept *)
Theorem C178_frozen {V M X T K Out O OS L : Type} (o_init : O -> tree V -> OS) (o_update : O -> tree V -> OS -> tree V -> result (tree V * OS))
    (diff : (tree V -> L) -> tree V -> tree V) (gadd : tree V -> tree V -> result (tree V)) (gdiv : nat -> tree V -> tree V) (zeros : tree V -> tree V)
    (net : tree V -> K -> X -> Out) (key : nat -> nat -> K) (loss_fn : Out -> T -> L)
  (k : cm_call V M X T O OS) f r r' n p m : k_freeze k = Some f -> by_path f -> keeps_structure (o_update (k_method k)) -> starts k r = Some (n, p, m) -> parameters p ->
  cm_calibrate o_init o_update diff gadd gdiv zeros net key loss_fn k r = Ok r' ->
  exists s fr tr tr', r' = Some (k_dump k, s) /\ (forall q v, leaf_at fr q v <-> leaf_at p q v /\ f q v = "frozen"%string) /\
    (forall q v, leaf_at tr q v <-> leaf_at p q v /\ f q v = "trainable"%string) /\
    descent (o_update (k_method k)) (fun g => g) diff (fun q m b i => (loss_fn (net (get_all_params fr q) (key (k_run k) i) (fst b)) (snd b), m)) (k_batches k)
      (n, tr, o_init (k_method k) tr, m) (t_step s, tr', t_opt s, t_mutable s) /\ t_params s = get_all_params fr tr' /\
    (forall q v, leaf_at p q v -> f q v = "frozen"%string -> leaf_at (t_params s) q v) /\
    (forall q v, leaf_at p q v -> f q v = "trainable"%string -> exists w, leaf_at tr' q w /\ leaf_at (t_params s) q w).
Proof. exact (@calibrate_frozen V M X T K Out O OS L o_init o_update diff gadd gdiv zeros net key loss_fn k f r r' n p m). Qed.
Print Assumptions C178_frozen.
Example C178_case_frozen : exists s, let k := cq_call 2 true [(1, 1); (3, 1)]%Z None false false in by_path ze_freeze /\ keeps_structure (tgd 2) /\ starts k None = Some (0, ze_params 5 7, None) /\ parameters (ze_params 5 7) /\
  cq_runs tgd tdiff [k] None = Ok (Some (false, s)) /\ t_params s = ze_params 5 (-33) /\ t_step s = 2.
Proof. eexists. split; [now intros p v w|]. split; [apply tgd_keeps|]. split; [reflexivity|]. split; [split; [uniq|eexists; reflexivity]|]. split; [vm_compute; reflexivity|]. split; reflexivity. Qed.

(** C178: it then succeeds exactly under the same conditions with labels that are all allowed *)
Theorem C178_succeeds_frozen {V M X T K Out O OS L : Type} (o_init : O -> tree V -> OS) (o_update : O -> tree V -> OS -> tree V -> result (tree V * OS))
    (diff : (tree V -> L) -> tree V -> tree V) (gadd : tree V -> tree V -> result (tree V)) (gdiv : nat -> tree V -> tree V) (zeros : tree V -> tree V)
    (net : tree V -> K -> X -> Out) (key : nat -> nat -> K) (loss_fn : Out -> T -> L)
  (k : cm_call V M X T O OS) f r n p m : k_freeze k = Some f -> (forall g os q, exists x, o_update (k_method k) g os q = Ok x) -> starts k r = Some (n, p, m) -> parameters p ->
  ((exists r', cm_calibrate o_init o_update diff gadd gdiv zeros net key loss_fn k r = Ok r') <-> labelled f p /\ (k_batches k = [] \/ m = None) /\ (k_dump k = true -> k_dir k = true)).
Proof. exact (@succeeds_frozen V M X T K Out O OS L o_init o_update diff gadd gdiv zeros net key loss_fn k f r n p m). Qed.
Print Assumptions C178_succeeds_frozen.
Example C178_case_succeeds_frozen : exists s, let k := cq_call 1 true [(1, 1)]%Z None false true in k_freeze k = Some ze_freeze /\ (forall g os q, exists x, cq_total (k_method k) g os q = Ok x) /\
  starts k None = Some (0, ze_params 5 7, None) /\ parameters (ze_params 5 7) /\ cq_runs cq_total ze_diff [k] None = Ok (Some (true, s)) /\ t_params s = ze_params 5 2.
Proof. eexists. split; [reflexivity|]. split; [intros; apply cq_total_ok|]. split; [reflexivity|]. split; [split; [uniq|eexists; reflexivity]|]. split; [vm_compute; reflexivity|reflexivity]. Qed.

(** C178: after any number of calibrations that continue a first one the step counter has counted all
    batches, the parameters have the same paths, and an array frozen in all of them is unchanged *)
Theorem C178_any_number {V M X T K Out O OS L : Type} (o_init : O -> tree V -> OS) (o_update : O -> tree V -> OS -> tree V -> result (tree V * OS))
    (diff : (tree V -> L) -> tree V -> tree V) (gadd : tree V -> tree V -> result (tree V)) (gdiv : nat -> tree V -> tree V) (zeros : tree V -> tree V)
    (net : tree V -> K -> X -> Out) (key : nat -> nat -> K) (loss_fn : Out -> T -> L)
  (l : list (cm_call V M X T O OS)) : forall k r r' n p m, (forall a, In a l -> continues a) -> (forall a, In a (k :: l) -> keeps_structure (o_update (k_method a))) ->
  starts k r = Some (n, p, m) -> parameters p -> cm_calibrations o_init o_update diff gadd gdiv zeros net key loss_fn (k :: l) r = Ok r' ->
  exists f s, r' = Some (f, s) /\ parameters (t_params s) /\ (forall q, (exists v, leaf_at (t_params s) q v) <-> (exists v, leaf_at p q v)) /\
  t_step s = n + list_sum (map (fun a => length (k_batches a)) (k :: l)) /\
  (forall q v, leaf_at p q v -> (forall a, In a (k :: l) -> exists f, k_freeze a = Some f /\ f q v = "frozen"%string) -> leaf_at (t_params s) q v).
Proof. exact (@any_number V M X T K Out O OS L o_init o_update diff gadd gdiv zeros net key loss_fn l). Qed.
Print Assumptions C178_any_number.
Example C178_case_any_number : exists s, let k := cq_call 1 true [(1, 1)]%Z None false false in let a := cq_call 2 true [(1, 1); (1, 2)]%Z None true true in
  (forall x, In x [a] -> continues x) /\ (forall x, In x [k; a] -> keeps_structure (tgd (k_method x))) /\ starts k None = Some (0, ze_params 5 7, None) /\ parameters (ze_params 5 7) /\
  cq_runs tgd tdiff [k; a] None = Ok (Some (true, s)) /\ t_step s = 3 /\ leaf_at (t_params s) ["a"%string] 5%Z /\ leaf_at (t_params s) ["w"%string] (-28)%Z.
Proof. eexists. split; [intros x [<-|[]]; split; reflexivity|]. split; [intros x Hx; apply tgd_keeps|]. split; [reflexivity|]. split; [split; [uniq|eexists; reflexivity]|]. split; [vm_compute; reflexivity|]. repeat split. Qed.

(** C178: a calibration that does not continue gives the same after any calibrations *)
Theorem C178_anew {V M X T K Out O OS L : Type} (o_init : O -> tree V -> OS) (o_update : O -> tree V -> OS -> tree V -> result (tree V * OS))
    (diff : (tree V -> L) -> tree V -> tree V) (gadd : tree V -> tree V -> result (tree V)) (gdiv : nat -> tree V -> tree V) (zeros : tree V -> tree V)
    (net : tree V -> K -> X -> Out) (key : nat -> nat -> K) (loss_fn : Out -> T -> L)
  (l : list (cm_call V M X T O OS)) k r0 r' : ~ continues k -> cm_calibrations o_init o_update diff gadd gdiv zeros net key loss_fn (l ++ [k]) r0 = Ok r' ->
  forall r, cm_calibrate o_init o_update diff gadd gdiv zeros net key loss_fn k r = Ok r'.
Proof. exact (@forgets V M X T K Out O OS L o_init o_update diff gadd gdiv zeros net key loss_fn l k r0 r'). Qed.
Print Assumptions C178_anew.
Example C178_case_anew : exists s, let k := cq_call 1 false [(2, 1)]%Z None false false in ~ continues k /\
  cq_runs cz_growing ze_diff ([cq_call 1 false [(1, 1)]%Z None false true] ++ [k]) None = Ok (Some (false, s)) /\ t_params s = ze_params (-9) (-3).
Proof. eexists. split; [intros [_ H]; discriminate H|]. split; [vm_compute; reflexivity|reflexivity]. Qed.

(** C178: dumping states makes no difference to them *)
Theorem C178_storage {V M X T K Out O OS L : Type} (o_init : O -> tree V -> OS) (o_update : O -> tree V -> OS -> tree V -> result (tree V * OS))
    (diff : (tree V -> L) -> tree V -> tree V) (gadd : tree V -> tree V -> result (tree V)) (gdiv : nat -> tree V -> tree V) (zeros : tree V -> tree V)
    (net : tree V -> K -> X -> Out) (key : nat -> nat -> K) (loss_fn : Out -> T -> L)
  (l : list (cm_call V M X T O OS)) : (forall k, In k l -> k_dump k = true -> k_dir k = true) ->
  rmap (option_map snd) (cm_calibrations o_init o_update diff gadd gdiv zeros net key loss_fn l None) = rmap (option_map snd) (cm_calibrations o_init o_update diff gadd gdiv zeros net key loss_fn (map undumped l) None).
Proof. exact (@storage_start V M X T K Out O OS L o_init o_update diff gadd gdiv zeros net key loss_fn l). Qed.
Print Assumptions C178_storage.
Example C178_case_storage : exists s, let l := [cq_call 1 false [(1, 1)]%Z None false true; cq_call 1 true [(1, 1)]%Z None true false] in
  (forall k, In k l -> k_dump k = true -> k_dir k = true) /\ rmap (option_map snd) (cq_runs tgd tdiff l None) = Ok (Some s) /\ t_params s = ze_params (-2) 4.
Proof. eexists. split; [intros k [<-|[<-|[]]]; reflexivity|]. split; [vm_compute; reflexivity|reflexivity]. Qed.

(** C178: with an optimizer without state and a model without random numbers, a calibration and those
    that continue it are one calibration on all their batches *)
Theorem C178_longer {V M X T K Out O OS L : Type} (o_init : O -> tree V -> OS) (o_update : O -> tree V -> OS -> tree V -> result (tree V * OS))
    (diff : (tree V -> L) -> tree V -> tree V) (gadd : tree V -> tree V -> result (tree V)) (gdiv : nat -> tree V -> tree V) (zeros : tree V -> tree V)
    (net : tree V -> K -> X -> Out) (key : nat -> nat -> K) (loss_fn : Out -> T -> L) :
  (forall f g p, (forall q, f q = g q) -> diff f p = diff g p) -> (forall p i j x, net p i x = net p j x) ->
  forall parts (k : cm_call V M X T O OS) l0 r, k_freeze k = None -> stateless o_init o_update (k_method k) -> cm_calibrations o_init o_update diff gadd gdiv zeros net key loss_fn l0 None = Ok r ->
  cm_calibrations o_init o_update diff gadd gdiv zeros net key loss_fn (k :: map (fun x => continued k (fst x) (snd x)) parts) r = cm_calibrate o_init o_update diff gadd gdiv zeros net key loss_fn (on_batches k (k_batches k ++ concat (map snd parts))) r.
Proof. exact (@longer V M X T K Out O OS L o_init o_update diff gadd gdiv zeros net key loss_fn). Qed.
Print Assumptions C178_longer.
Example C178_case_longer : exists s, let k := cq_call 1 false [(1, 1)]%Z None false true in (forall f g p, (forall q, f q = g q) -> ze_diff f p = ze_diff g p) /\ (forall p i j x, cq_net p i x = cq_net p j x) /\ stateless ze_init cz_plain (k_method k) /\
  cq_runs cz_plain ze_diff [k; continued k 3 [(1, 2)]%Z; continued k 4 [(2, 1)]%Z] None = Ok (Some (true, s)) /\ cq_runs cz_plain ze_diff [on_batches k [(1, 1); (1, 2); (2, 1)]%Z] None = Ok (Some (true, s)) /\ t_step s = 3.
Proof. eexists. split; [exact ze_diff_ext|]. split; [reflexivity|]. split; [exact cz_stateless|]. split; [vm_compute; reflexivity|]. split; [vm_compute; reflexivity|reflexivity]. Qed.

(** C178 fails without start_from_current_state: a second calibration starts from new parameters ... *)
Theorem C178_twice_refuted : exists k r1 r2 s1 s2, k_freeze k = None /\ k_checkpoint k = None /\ stateless ze_init cz_plain (k_method k) /\
  cq_runs cz_plain ze_diff [k; k] None = Ok r1 /\ cq_runs cz_plain ze_diff [on_batches k (k_batches k ++ k_batches k)] None = Ok r2 /\ cq_runs cz_plain ze_diff [k] None = Ok r1 /\
  option_map snd r1 = Some s1 /\ option_map snd r2 = Some s2 /\ t_params s1 <> t_params s2.
Proof. exact cq_twice. Qed.
Print Assumptions C178_twice_refuted.
(** ... and with an optimizer that has a state, which starts anew while the step counter does not *)
Theorem C178_reset_refuted : exists k r1 r2 s1 s2, k_freeze k = None /\
  cq_runs cz_growing ze_diff [k; continued k (k_run k) (k_batches k)] None = Ok r1 /\ cq_runs cz_growing ze_diff [on_batches k (k_batches k ++ k_batches k)] None = Ok r2 /\
  option_map snd r1 = Some s1 /\ option_map snd r2 = Some s2 /\ t_step s1 = t_step s2 /\ t_params s1 <> t_params s2.
Proof. exact cq_reset. Qed.
Print Assumptions C178_reset_refuted.
