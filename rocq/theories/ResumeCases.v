(** Toy parameters used by the examples, and the case of keys out of order. *)
From Coq Require Import List Arith Lia String Permutation Sorting.Sorted.
From Verif Require Import Lib NestedModel NestedSpec FreezeModel FreezeSpec LapModel LapSpec FlatModel FlatSpec EnsSpec ResumeModel ResumeSpec.
Import ListNotations.
Open Scope list_scope.
Local Open Scope string_scope.
Local Notation length := List.length.

(** keys in alphabetical order, and not *)
Definition rs_net : tree (list nat) := Dict [("model", Dict [("params", Dict [("bias", Leaf [4]); ("kernel", Leaf [1; 2; 3]); ("scale", Leaf [5; 6])])])].
Definition rs_init : list (string * tree (list nat)) := [("model", Dict [("bias", Leaf [4]); ("kernel", Leaf [1; 2; 3])]); ("lik_log_var", Leaf [7])].
Definition rs_out_of_order : tree (list nat) := Dict [("model", Dict [("params", Dict [("kernel", Leaf [1; 2]); ("bias", Leaf [3])])])].
(** all but the scale are trainable; everything is; only the kernel is *)
Definition rs_head (p : path) (v : list nat) : string := if String.eqb (last p "") "scale" then "frozen" else "trainable".
Definition rs_all (p : path) (v : list nat) : string := "trainable".
Definition rs_kernel (p : path) (v : list nat) : string := if String.eqb (last p "") "kernel" then "trainable" else "frozen".
Definition rs_zeros (n : nat) : list nat := repeat 0 n.
(** training that adds 10 to means and 1 to logarithms *)
Definition rs_train (m l : list nat) : result (list nat * list nat) := Ok (map (fun x => x + 10) m, map S l).
Definition rs_p (k : string) : path := ["model"; "params"; k].

Lemma order_refuted : exists (init : tree (list nat)) f random paths st m d, by_path f /\ unique_keys init /\ get_trainable_paths init (Some f) = Ok paths /\
  (forall n, length (random n) = n) /\
  fit (Some f) (FromMap init) random no_steps = Ok (FromPaths paths st) /\ nested_unpair st paths ["mean"; "log_std"] = Ok (m, d) /\
  leaf_at init (rs_p "kernel") [1; 2] /\ leaf_at m (rs_p "kernel") [3; 1] /\
  exists st' m' d', fit (Some f) (FromPaths paths st) random no_steps = Ok (FromPaths paths st') /\ nested_unpair st' paths ["mean"; "log_std"] = Ok (m', d') /\
    leaf_at m' (rs_p "kernel") [2; 3].
Proof.
  exists rs_out_of_order, rs_all, rs_zeros, [rs_p "kernel"; rs_p "bias"]. do 3 eexists. split; [intros p v w; reflexivity|]. split; [repeat constructor; simpl; intuition discriminate|]. split; [vm_compute; reflexivity|]. split; [apply repeat_length|]. split; [vm_compute; reflexivity|]. split; [vm_compute; reflexivity|].
  split; [reflexivity|]. split; [reflexivity|]. do 3 eexists. split; [vm_compute; reflexivity|]. split; [vm_compute; reflexivity|]. reflexivity.
Qed.
Lemma rs_sorted : StronglySorted path_lt [rs_p "bias"; rs_p "kernel"].
Proof. apply SSorted_cons; [apply SSorted_cons; constructor|]. constructor; [|constructor]. apply plt_tail, plt_tail, plt_head. reflexivity. Qed.
Lemma rs_unique : unique_keys rs_net.
Proof. repeat constructor; simpl; intuition discriminate. Qed.
