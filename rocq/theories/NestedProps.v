(** Properties C12-C15, C58: nested dictionaries and encoded key paths. *)
From Coq Require Import List Arith Lia Bool String Permutation.
From Verif Require Import Lib NestedModel NestedSpec NestedProofs NestedProofs2 NestedHeapModel NestedHeapProofs.
From Verif Require Import Lit.
Import ListNotations.
Open Scope list_scope.
Local Notation length := List.length.
Local Open Scope string_scope.

(** C12 *)
Theorem C12_get : forall V (d : tree V) keys v, keys <> [] ->
  (nested_get d keys = Ok v <-> at_path d keys = Some v).
Proof. intros V. exact (@nested_get_spec V). Qed.
Print Assumptions C12_get.

Theorem C12_get_empty : forall V (d : tree V), nested_get d [] = Err ValueError.
Proof. intros V. exact (@nested_get_empty V). Qed.

(** every read of the result: the last assignment to a prefix of the path, else the original *)
Theorem C12_set_reads : forall V allow paths objs (d d' : tree V) q,
  nested_set d paths objs allow = Ok d' ->
  Forall (fun p => forall r, r <> [] -> p <> (q ++ r)%list) paths ->
  read_after (combine paths objs) q (at_path d q) (at_path d' q).
Proof. intros V. exact (@nested_set_read V). Qed.
Print Assumptions C12_set_reads.

Theorem C12_get_after_set : forall V allow pos1 p o pos2 (d d' : tree V),
  nested_set d (map fst (pos1 ++ (p, o) :: pos2)) (map snd (pos1 ++ (p, o) :: pos2)) allow = Ok d' ->
  Forall (fun po => independent (fst po) p) pos2 ->
  at_path d' p = Some o.
Proof. intros V. exact (@nested_set_last V). Qed.
Print Assumptions C12_get_after_set.

Theorem C12_other_paths_kept : forall V allow paths objs (d d' : tree V) q,
  nested_set d paths objs allow = Ok d' ->
  Forall (fun p => independent p q) paths -> at_path d' q = at_path d q.
Proof. intros V. exact (@nested_set_other V). Qed.
Print Assumptions C12_other_paths_kept.

Theorem C12_keys_above_kept : forall V (d d' : tree V) p o q r,
  nested_set d [p] [o] false = Ok d' -> p = (q ++ r)%list -> r <> [] ->
  exists kvs kvs', at_path d q = Some (Dict kvs) /\ at_path d' q = Some (Dict kvs') /\
                   map fst kvs' = map fst kvs.
Proof. intros V. exact (@nested_set_above V). Qed.
Print Assumptions C12_keys_above_kept.

Theorem C12_missing_paths_raise : forall V paths objs (d : tree V), length paths = length objs ->
  all_independent paths -> Forall (fun p => p <> []) paths ->
  ((exists d', nested_set d paths objs false = Ok d') <-> Forall (fun p => at_path d p <> None) paths).
Proof. intros V. exact (@nested_set_ok V). Qed.
Print Assumptions C12_missing_paths_raise.

Theorem C12_missing_path_keyerror : forall V (d : tree V) p o, p <> [] -> at_path d p = None ->
  (forall q r v, p = (q ++ r)%list -> r <> [] -> at_path d q <> Some (Leaf v)) ->
  nested_set d [p] [o] false = Err KeyError.
Proof. intros V. exact (@nested_set_keyerror V). Qed.
Print Assumptions C12_missing_path_keyerror.
Example C12_case_missing : at_path (Dict [("a", Dict [("b", Leaf 1)])]) ["a"; "c"] = None /\
  (forall q r v, ["a"; "c"] = (q ++ r)%list -> r <> [] -> at_path (Dict [("a", Dict [("b", Leaf 1)])]) q <> Some (Leaf v)).
Proof. split; [reflexivity|]. intros [|x [|y [|z q]]] r v E R; cbn in E; inversion E; subst; cbn; congruence. Qed.

(** with creation allowed, only a leaf on the way is an obstacle *)
Theorem C12_creation_allowed : forall V (d : tree V) p o, p <> [] ->
  ((exists d', nested_set d [p] [o] true = Ok d') <->
   (forall q r v, p = (q ++ r)%list -> r <> [] -> at_path d q <> Some (Leaf v))).
Proof. intros V. exact (@nested_set_create V). Qed.
Print Assumptions C12_creation_allowed.

Theorem C12_length_mismatch : forall V paths objs (d : tree V) allow, length paths <> length objs ->
  nested_set d paths objs allow = Err ValueError.
Proof. intros V. exact (@nested_set_length V). Qed.

(** the input dictionary (and every other existing object) is left as it was, on the object heap,
    if the assigned objects are not dictionaries or there is a single path *)
Theorem C12_input_not_modified : forall V fuel (h : heap V) a paths objs allow h' r,
  hnested_set fuel h a paths objs allow = Some (Ok (h', r)) ->
  (forall v, In v objs -> exists x, v = VLeaf x) \/ length paths = 1 ->
  forall b d, nth_error h b = Some d -> nth_error h' b = Some d.
Proof. intros V. exact (@hnested_set_keeps V). Qed.
Print Assumptions C12_input_not_modified.
Example C12_case_heap : exists h', hnested_set 9 [[("a", VRef 1); ("b", VLeaf 1)]; [("w", VLeaf 2)]] 0 [["a"; "w"]; ["b"]] [VLeaf 20; VLeaf 30] false = Some (Ok h') /\
  (forall v : value nat, In v [VLeaf 20; VLeaf 30] -> exists x, v = VLeaf x).
Proof. eexists. split; [vm_compute; reflexivity|]. intros v [<-|[<-|[]]]; eauto. Qed.

(** an assigned dictionary is modified when a later path goes through it *)
Theorem C12_assigned_object_modified_refuted :
  exists (h : heap nat) a paths objs h' r,
    hnested_set 3 h a paths objs true = Some (Ok (h', r)) /\
    exists b d, nth_error h b = Some d /\ nth_error h' b <> Some d.
Proof.
  exists [[("a", VLeaf 0)]; []], 0, [["a"]; ["a"; "b"]], [VRef 1; VLeaf 5]. eexists. eexists.
  split; [reflexivity|]. exists 1, []. split; [reflexivity|]. intros H. discriminate H.
Qed.
Print Assumptions C12_assigned_object_modified_refuted.

(** if the input shares one dictionary object at two places, setting one path changes the other *)
Theorem C12_shared_subdictionary_refuted :
  exists (h : heap nat) a p o q h' r,
    hnested_set 3 h a [p] [o] false = Some (Ok (h', r)) /\ independent p q /\
    hread h (VRef a) q <> hread h' (VRef r) q.
Proof.
  exists [[("a", VRef 1); ("b", VRef 1)]; [("x", VLeaf 0)]], 0, ["a"; "x"], (VLeaf 5), ["b"; "x"].
  eexists. eexists. split; [reflexivity|]. split.
  - split; intros (r & H); discriminate H.
  - intros H. discriminate H.
Qed.
Print Assumptions C12_shared_subdictionary_refuted.

Definition params0 : tree nat :=
  Dict [("model", Dict [("dense", Dict [("kernel", Leaf 1); ("bias", Leaf 2)]); ("out", Leaf 3)]);
        ("lik_log_var", Dict [("params", Leaf 4)])].

Example C12_case :
  nested_set params0 [["model"; "dense"; "bias"]; ["lik_log_var"]] [Leaf 20; Leaf 40] false
  = Ok (Dict [("model", Dict [("dense", Dict [("kernel", Leaf 1); ("bias", Leaf 20)]); ("out", Leaf 3)]);
              ("lik_log_var", Leaf 40)])
  /\ nested_set params0 [["model"; "nope"]] [Leaf 0] false = Err KeyError
  /\ all_independent [["model"; "dense"; "bias"]; ["lik_log_var"]].
Proof.
  split; [reflexivity|]. split; [reflexivity|].
  repeat constructor; intros (r & H); discriminate H.
Qed.

(** C13 *)
Theorem C13_pair_unpair : forall V (d : tree V) paths objs l0 l1,
  l0 <> l1 -> length paths = length objs -> all_independent paths -> Forall (fun p => p <> []) paths ->
  Forall (fun p => at_path d p <> None) paths ->
  exists D d2, nested_pair d paths objs [l0; l1] = Ok D /\
    nested_unpair D paths [l0; l1] = Ok (d, d2) /\
    Forall (fun po => at_path d2 (fst po) = Some (snd po)) (combine paths objs) /\
    (forall q t, at_path d2 q = Some t -> q = [] \/ Exists (fun p => prefix_of p q \/ prefix_of q p) paths).
Proof. intros V. exact (@pair_unpair V). Qed.
Print Assumptions C13_pair_unpair.
Example C13_case_independent : all_independent [["params"; "w"]; ["params"; "b"]; ["rest"]] /\ Forall (fun p => independent p ["params"; "c"]) [["params"; "w"]; ["params"; "b"]; ["rest"]].
Proof. split; repeat constructor; intros [r E]; discriminate E. Qed.

Theorem C13_pair_frame : forall V (d : tree V) paths objs l0 l1 D q,
  nested_pair d paths objs [l0; l1] = Ok D ->
  Forall (fun p => independent p q) paths -> at_path D q = at_path d q.
Proof. intros V. exact (@pair_frame V). Qed.
Print Assumptions C13_pair_frame.

(** with equal labels the original value is lost *)
Theorem C13_equal_labels_refuted : exists (d : tree nat) p o D,
  nested_pair d [p] [o] ["l"; "l"] = Ok D /\
  forall d1 d2, nested_unpair D [p] ["l"; "l"] = Ok (d1, d2) -> d1 <> d.
Proof.
  exists (Dict [("a", Leaf 1)]), ["a"], (Leaf 2). eexists. split; [reflexivity|].
  intros d1 d2 H. injection H as <- <-. intros X. discriminate X.
Qed.
Print Assumptions C13_equal_labels_refuted.

Example C13_case :
  nested_pair params0 [["model"; "dense"; "bias"]; ["lik_log_var"]] [Leaf 20; Leaf 40] ["mean"; "std"]
  = Ok (Dict [("model", Dict [("dense", Dict [("kernel", Leaf 1); ("bias", Dict [("mean", Leaf 2); ("std", Leaf 20)])]); ("out", Leaf 3)]);
              ("lik_log_var", Dict [("mean", Dict [("params", Leaf 4)]); ("std", Leaf 40)])]).
Proof. reflexivity. Qed.

(** C14 *)
Theorem C14_last_update_wins : forall V (d : tree V) us u q v,
  unique_keys u -> at_path u q = Some (Leaf v) ->
  at_path (nested_update d (us ++ [u])) q = Some (Leaf v).
Proof. intros V. exact (@nested_update_last V). Qed.
Print Assumptions C14_last_update_wins.

Theorem C14_untouched_kept : forall V (d : tree V) us q t,
  Forall unique_keys us -> at_path d q = Some t ->
  Forall (fun u => at_path u q = None /\ forall p v, prefix_of p q -> at_path u p <> Some (Leaf v)) us ->
  at_path (nested_update d us) q = Some t.
Proof. intros V. exact (@nested_update_keep V). Qed.
Print Assumptions C14_untouched_kept.
Example C14_case_untouched : let u := Dict [("m", Dict [("a", Leaf 9)])] in unique_keys u /\ at_path (Dict [("m", Dict [("a", Leaf 1); ("b", Leaf 2)])]) ["m"; "b"] = Some (Leaf 2) /\ at_path u ["m"; "b"] = None /\
  (forall p v, prefix_of p ["m"; "b"] -> at_path u p <> Some (Leaf v)).
Proof. cbn zeta. split; [cbn; repeat (split || constructor || intros [H|H] || (intros H; destruct H)); congruence|]. split; [reflexivity|]. split; [reflexivity|]. intros p v [r E]. destruct p as [|x [|y [|z q]]]; cbn in E; inversion E; subst; cbn; congruence. Qed.

Theorem C14_no_other_leaves : forall V (d : tree V) us q v, Forall unique_keys us ->
  at_path (nested_update d us) q = Some (Leaf v) ->
  Exists (fun s => at_path s q = Some (Leaf v)) (us ++ [d]).
Proof. intros V. exact (@nested_update_source V). Qed.
Print Assumptions C14_no_other_leaves.

Theorem C14_empty_identity : forall V (d : tree V), (exists kvs, d = Dict kvs) -> nested_update d [Dict []] = d.
Proof. intros V. exact (@nested_update_empty V). Qed.
Print Assumptions C14_empty_identity.

Example C14_case :
  nested_update params0 [Dict [("model", Dict [("dense", Dict [("bias", Leaf 9)])]); ("new", Leaf 8)]; Dict [("new", Dict [("x", Leaf 7)])]]
  = Dict [("model", Dict [("dense", Dict [("kernel", Leaf 1); ("bias", Leaf 9)]); ("out", Leaf 3)]);
          ("lik_log_var", Dict [("params", Leaf 4)]); ("new", Dict [("x", Leaf 7)])]
  /\ unique_keys params0.
Proof.
  split; [reflexivity|]. simpl.
  repeat split; repeat constructor; simpl; intuition discriminate.
Qed.

(** C15 *)
Theorem C15_in_memory : forall a, decode (encode a) = a.
Proof. exact decode_encode. Qed.
Print Assumptions C15_in_memory.

Theorem C15_checkpoint_small : forall a, length a <= 10 -> Forall (fun p => length p <= 10) a ->
  decode (option_map via_checkpoint (encode (Some a))) = Some a.
Proof. exact decode_checkpoint. Qed.
Print Assumptions C15_checkpoint_small.

Theorem C15_checkpoint_permutes : forall a,
  exists b, decode (option_map via_checkpoint (encode (Some a))) = Some b /\
  exists c, Permutation a c /\ Forall2 (@Permutation string) c b.
Proof. exact decode_checkpoint_perm. Qed.
Print Assumptions C15_checkpoint_permutes.

(** with eleven key paths the order changes *)
Theorem C15_checkpoint_eleven_refuted : exists a, length a = 11 /\
  decode (option_map via_checkpoint (encode (Some a))) <> Some a.
Proof.
  exists [["a"];["b"];["c"];["d"];["e"];["f"];["g"];["h"];["i"];["j"];["k"]].
  split; [exact eq_refl|]. vm_compute. intros H. discriminate H.
Qed.
Print Assumptions C15_checkpoint_eleven_refuted.

(** a single path with eleven keys comes back scrambled: it leads elsewhere *)
Theorem C15_long_path_refuted : exists p, length p = 11 /\
  decode (option_map via_checkpoint (encode (Some [p]))) <> Some [p].
Proof.
  exists ["a";"b";"c";"d";"e";"f";"g";"h";"i";"j";"k"].
  split; [exact eq_refl|]. vm_compute. intros H. discriminate H.
Qed.
Print Assumptions C15_long_path_refuted.

Example C15_case :
  decode (option_map via_checkpoint (encode (Some [["model"; "params"]; ["lik_log_var"]])))
  = Some [["model"; "params"]; ["lik_log_var"]].
Proof. reflexivity. Qed.

(** C58 *)
Theorem C58_find_path : forall V (t : tree V) key, unique_keys t ->
  (key_occurs t key ->
     exists s v, find_path t key [] = (s ++ [key])%list /\ ~ In key s /\ at_path t (find_path t key []) = Some v) /\
  (~ key_occurs t key -> find_path t key [] = []).
Proof. intros V t key U. exact (find_path_top t key U). Qed.
Print Assumptions C58_find_path.
Example C58_case_hypotheses : let t := Dict [("a", Dict [("k", Leaf 1); ("b", Leaf 2)]); ("c", Leaf 3)] in unique_keys t /\ key_occurs t "k" /\ find_path t "k" [] = ["a"; "k"].
Proof. cbn zeta. split; [uniq|]. split; [exists ["a"], (Leaf 1); reflexivity|reflexivity]. Qed.

Example C58_case : find_path params0 "bias" [] = ["model"; "dense"; "bias"] /\ find_path params0 "zzz" [] = [].
Proof. split; reflexivity. Qed.
