(** Toys for several calibrations of a calibration model: the network of EnsCases.v with outputs
    a * w * input, and the loss output * target. *)
From Coq Require Import List ZArith Lia Bool String.
From Verif Require Import Lib NestedModel NestedSpec FreezeModel FreezeSpec EnsModel EnsSpec EnsCases ContModel ContSpec ContCases TreeCases CmRunModel CmRunSpec.
Import ListNotations.
Open Scope list_scope.
Local Open Scope Z_scope.

Definition cq_net (p : tree Z) (key : unit) (x : Z) : Z := ze_get "a" p * ze_get "w" p * x.
Definition cq_call (lr : Z) (frozen : bool) (bs : list (Z * Z)) (checkpoint : option (option (tstate Z unit unit Z Z))) (current dump : bool) : cm_call Z unit Z Z Z Z :=
  {| k_method := lr; k_freeze := if frozen then Some ze_freeze else None; k_run := 0; k_batches := bs; k_init := (ze_params 5 7, None);
     k_checkpoint := checkpoint; k_current := current; k_dump := dump; k_dir := true |}.
Definition cq_runs (update : Z -> tree Z -> Z -> tree Z -> result (tree Z * Z)) (diff : (tree Z -> Z) -> tree Z -> tree Z) :=
  cm_calibrations (M := unit) ze_init update diff tadd (fun n => tmap (fun x => x / Z.of_nat n)) (tmap (fun _ => 0)) cq_net (fun _ _ => tt) Z.mul.

(** gradient descent that never raises *)
Definition cq_total (lr : Z) (g : tree Z) (os : Z) (p : tree Z) : result (tree Z * Z) := match cz_growing lr g os p with Ok x => Ok x | Err _ => Ok (p, os) end.
Lemma cq_total_ok lr g os p : exists x, cq_total lr g os p = Ok x.
Proof. unfold cq_total. destruct (cz_growing lr g os p); eexists; reflexivity. Qed.
Lemma ze_diff_ext f g p : (forall q, f q = g q) -> ze_diff f p = ze_diff g p.
Proof. intros E. destruct p as [v|kvs]; cbn [ze_diff]; [now rewrite !E|]. f_equal. apply map_ext. intros kv. now rewrite !E. Qed.
Lemma cq_twice : exists k r1 r2 s1 s2, k_freeze k = None /\ k_checkpoint k = None /\ stateless ze_init cz_plain (k_method k) /\
  cq_runs cz_plain ze_diff [k; k] None = Ok r1 /\ cq_runs cz_plain ze_diff [on_batches k (k_batches k ++ k_batches k)] None = Ok r2 /\ cq_runs cz_plain ze_diff [k] None = Ok r1 /\
  option_map snd r1 = Some s1 /\ option_map snd r2 = Some s2 /\ t_params s1 <> t_params s2.
Proof. exists (cq_call 1 false [(1, 1)] None false false). do 4 eexists. split; [reflexivity|]. split; [reflexivity|]. split; [exact cz_stateless|]. do 3 (split; [vm_compute; reflexivity|]). split; [reflexivity|]. split; [reflexivity|]. discriminate. Qed.
Lemma cq_reset : exists k r1 r2 s1 s2, k_freeze k = None /\
  cq_runs cz_growing ze_diff [k; continued k (k_run k) (k_batches k)] None = Ok r1 /\ cq_runs cz_growing ze_diff [on_batches k (k_batches k ++ k_batches k)] None = Ok r2 /\
  option_map snd r1 = Some s1 /\ option_map snd r2 = Some s2 /\ t_step s1 = t_step s2 /\ t_params s1 <> t_params s2.
Proof. exists (cq_call 1 false [(1, 1)] None false false). do 4 eexists. split; [reflexivity|]. do 2 (split; [vm_compute; reflexivity|]). split; [reflexivity|]. split; [reflexivity|]. split; [reflexivity|]. discriminate. Qed.
