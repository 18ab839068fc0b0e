(** Properties C117-C120: posteriors that keep parameters as flat vectors. *)
From Coq Require Import List Arith Lia Bool String Permutation Sorting.Sorted.
From Verif Require Import Lib NestedModel NestedSpec FreezeModel FreezeSpec LapModel LapSpec FlatModel FlatSpec FlatCases FlatProofs FlatProofs2 FlatProofs3 FlatProofs4 FlatProofs5.
From Verif Require Import Lit.
Import ListNotations.
Open Scope list_scope.
Local Notation length := List.length.
Local Notation concat := List.concat.

(** ==== C117: flat vectors and trees ==== *)

Theorem C117_roundtrip : forall V (t : tree (list V)), unique_keys t ->
  exists t', unravel t (ravel t) = Ok t' /\ same_structure t t' /\ forall q v, leaf_at t' q v <-> leaf_at t q v.
Proof. exact (@flat_roundtrip). Qed.
Print Assumptions C117_roundtrip.

Theorem C117_any_vector : forall V (t : tree (list V)) l, unique_keys t ->
  (length l = length (ravel t) -> exists t', unravel t l = Ok t' /\ unique_keys t' /\ same_structure t t' /\ same_sizes t t' /\ ravel t' = l) /\
  (length l <> length (ravel t) -> unravel t l = Err ValueError).
Proof. exact (@flat_any). Qed.
Print Assumptions C117_any_vector.

Theorem C117_arithmetic : forall V (f : V -> V -> V -> V) (t A B C D : tree (list V)) a b c, unique_keys t ->
  length a = length b -> length a = length c ->
  unravel t a = Ok A -> unravel t b = Ok B -> unravel t c = Ok C -> unravel t (forward f a b c) = Ok D ->
  forall q v, leaf_at D q v -> exists x y z, leaf_at A q x /\ leaf_at B q y /\ leaf_at C q z /\ pointwise f x y z v.
Proof. exact (@flat_arithmetic). Qed.
Print Assumptions C117_arithmetic.
Example C117_case_hypotheses : unique_keys net /\ is_ok (unravel net [10; 20; 30; 40; 50; 60]) = true /\ is_ok (unravel net (forward affine [10; 20; 30; 40; 50; 60] [1; 1; 1; 1; 1; 1] [1; 2; 3; 4; 5; 6])) = true.
Proof. split; [uniq|]. split; vm_compute; reflexivity. Qed.

Example C117_case :
  ravel net = [4; 1; 2; 3; 5; 6] /\
  unravel net [10; 20; 30; 40; 50; 60] = Ok (Dict [("dense", Dict [("bias", Leaf [10]); ("kernel", Leaf [20; 30; 40])]); ("scale", Leaf [50; 60])])%string /\
  unravel net [1; 2] = Err ValueError.
Proof. vm_compute. auto. Qed.

(** ==== C118: ADVI ==== *)

(** without freeze function: the state holds the vectors, a draw is made array by array, and
    loading the state changes nothing *)
Theorem C118_plain : forall V (fwd : V -> V -> V -> V) (init : list (string * tree (list V))) mean log_std noise, unique_keys (Dict init) ->
  length mean = length (ravel (wrap init)) -> length log_std = length (ravel (wrap init)) -> length noise = length (ravel (wrap init)) ->
  exists state sample N, advi_state init mean log_std = Ok state /\
    same_structure (wrap init) (wrap (first_components state)) /\ ravel (wrap (first_components state)) = mean /\
    same_structure (wrap init) (wrap (second_components state)) /\ ravel (wrap (second_components state)) = log_std /\
    advi_sample fwd init state noise = Ok sample /\ same_structure (wrap init) sample /\ unravel (wrap init) noise = Ok N /\
    (forall q v, leaf_at sample q v -> exists m s u, leaf_at (wrap (first_components state)) q m /\ leaf_at (wrap (second_components state)) q s /\ leaf_at N q u /\ pointwise fwd m s u v) /\
    advi_sample fwd (advi_loaded_shape state) state noise = Ok sample.
Proof. exact (@advi_plain). Qed.
Print Assumptions C118_plain.
Example C118_case_hypotheses : unique_keys (Dict components) /\ length [7; 1; 2; 3; 4; 5; 6] = length (ravel (wrap components)).
Proof. split; [uniq|vm_compute; reflexivity]. Qed.

(** with freeze function, after fit *)
Theorem C118_frozen_fitted : forall V (fwd : V -> V -> V -> V) (init : tree (list V)) paths sizes mean log_std noise, arrays_at init paths sizes ->
  length mean = list_sum sizes -> length log_std = list_sum sizes -> length noise = list_sum sizes ->
  exists state sample, advi_state_paths init paths mean log_std = Ok state /\ advi_sample_fitted fwd init paths paths state noise = Ok sample /\
    (forall i p, nth_error paths i = Some p -> exists v, leaf_at sample p v /\ pointwise fwd (slice sizes i mean) (slice sizes i log_std) (slice sizes i noise) v) /\
    same_outside paths sample init.
Proof. exact (@advi_fitted). Qed.
Print Assumptions C118_frozen_fitted.

(** with freeze function, after load_state, whatever the order in which the paths come back *)
Theorem C118_frozen_loaded : forall V (fwd : V -> V -> V -> V) (init : tree (list V)) paths sizes decoded sizes' mean log_std noise,
  arrays_at init paths sizes -> arrays_at init decoded sizes' -> Permutation paths decoded ->
  length mean = list_sum sizes -> length log_std = list_sum sizes -> length noise = list_sum sizes ->
  exists state sample, advi_state_paths init paths mean log_std = Ok state /\ advi_sample_loaded fwd decoded state noise = Ok sample /\
    (forall i j p, nth_error paths i = Some p -> nth_error decoded j = Some p ->
      exists v, leaf_at sample p v /\ pointwise fwd (slice sizes i mean) (slice sizes i log_std) (slice sizes' j noise) v) /\
    same_outside paths sample init.
Proof. exact (@advi_loaded). Qed.
Print Assumptions C118_frozen_loaded.

(** after a fit whose state went through a checkpoint, eleven trainable arrays come back in another
    order than the one in which vectors are cut: with zero noise the draw is not the mean *)
Theorem C118_checkpoint_order_refuted : exists (init : tree (list nat)) f paths decoded mean log_std noise state sample p m v,
  get_trainable_paths init (Some f) = Ok paths /\ decode (option_map via_checkpoint (encode (Some paths))) = Some decoded /\ Permutation paths decoded /\
  advi_state_paths init paths mean log_std = Ok state /\
  advi_sample_fitted (fun m s u => m + s * u) init paths decoded state noise = Ok sample /\
  Forall (eq 0) noise /\ at_path state (p ++ ["mean"%string]) = Some (Leaf m) /\ leaf_at sample p v /\ v <> m.
Proof. exact (@advi_order_refuted). Qed.
Print Assumptions C118_checkpoint_order_refuted.

Example C118_case :
  let paths := two_paths in
  let state := advi_state_paths frozen_net paths [10; 20; 30; 40; 50] [1; 1; 2; 2; 2] in
  bind state (fun s => advi_sample_fitted affine frozen_net paths paths s [0; 1; 2; 3; 4]) =
    Ok (Dict [("model", Dict [("params", Dict [("dense", Dict [("kernel", Leaf [34; 46; 58]); ("bias", Leaf [4])]); ("scale", Leaf [10; 21])])])])%string /\
  bind state (fun s => advi_sample_loaded affine (rev paths) s [0; 1; 2; 3; 4]) =
    Ok (Dict [("model", Dict [("params", Dict [("dense", Dict [("kernel", Leaf [30; 42; 54]); ("bias", Leaf [4])]); ("scale", Leaf [13; 24])])])])%string /\
  arrays_at frozen_net paths [2; 3].
Proof.
  split; [vm_compute; reflexivity|]. split; [vm_compute; reflexivity|]. split; [repeat constructor; cbn [In]; intuition discriminate|].
  repeat constructor; try discriminate; eexists; split; reflexivity.
Qed.
Example C118_case_plain :
  bind (advi_state components [7; 1; 2; 3; 4; 5; 6] [1; 1; 1; 1; 1; 1; 2]) (fun s => advi_sample affine components s [1; 0; 0; 0; 0; 0; 1]) =
    Ok (Dict [("lik_log_var", Dict [("params", Leaf [8])]); ("model", Dict [("params", Dict [("dense", Dict [("bias", Leaf [1]); ("kernel", Leaf [2; 3; 4])]); ("scale", Leaf [5; 8])])])])%string.
Proof. vm_compute. reflexivity. Qed.

(** ==== C119: SWAG ==== *)

(** with freeze function, if the paths are sorted and come back in the same order *)
Theorem C119_frozen_sorted : forall V (params T T' : tree (list V)) paths, Forall (fun p => p <> [] /\ exists v, leaf_at params p v) paths -> StronglySorted path_lt paths ->
  extract params paths = Ok T -> unique_keys T' -> same_sizes T T' ->
  exists sample, swag_sample_paths params paths (swag_flat T') = Ok sample /\
    (forall p v, In p paths -> (leaf_at sample p v <-> leaf_at T' p v)) /\ same_outside paths sample params.
Proof. exact (@swag_sorted). Qed.
Print Assumptions C119_frozen_sorted.
Example C119_case_sorted : let paths := [["model"; "params"; "dense"; "kernel"]; ["model"; "params"; "scale"]]%string in
  exists T, Forall (fun p => p <> [] /\ exists v, leaf_at frozen_net p v) paths /\ StronglySorted path_lt paths /\ extract frozen_net paths = Ok T /\ unique_keys T /\ same_sizes T T.
Proof.
  eexists. split; [repeat constructor; try discriminate; eexists; reflexivity|]. split; [|split; [vm_compute; reflexivity|]; split; [uniq|intros q n; reflexivity]].
  repeat constructor; reflexivity.
Qed.

(** a dense layer whose kernel comes before its bias *)
Theorem C119_order_refuted : exists (params T : tree (list nat)) f paths sample p v w,
  unique_keys params /\ get_trainable_paths params (Some f) = Ok paths /\ extract params paths = Ok T /\
  swag_sample_paths params paths (swag_flat T) = Ok sample /\ leaf_at T p v /\ leaf_at sample p w /\ v <> w.
Proof. exact (@swag_order_refuted). Qed.
Print Assumptions C119_order_refuted.

(** one device, and the stored state in all cases *)
Theorem C119_one_device : forall V (draw : V -> V -> V -> V -> V) (params : tree (list V)) mean std dev normal z, unique_keys params ->
  length mean = length (ravel params) -> length std = length mean -> length dev = length mean -> normal (length mean) = z -> length z = length mean ->
  exists sample, swag_sample draw params (swag_returned false mean) (swag_returned false std) (swag_returned false dev) normal = Ok sample /\ same_structure params sample /\ same_sizes params sample /\
    (forall multi_device, swag_sample draw params (swag_checkpoint multi_device mean) (swag_checkpoint multi_device std) (swag_checkpoint multi_device dev) normal = Ok sample) /\
    forall i m s d e, nth_error mean i = Some m -> nth_error std i = Some s -> nth_error dev i = Some d -> nth_error z i = Some e -> nth_error (ravel sample) i = Some (draw m s d e).
Proof. exact (@swag_one_device). Qed.
Print Assumptions C119_one_device.
Example C119_case_device : unique_keys net /\ length [1; 2; 3; 4; 5; 6] = length (ravel net).
Proof. split; [uniq|reflexivity]. Qed.

(** several devices: the returned state cannot be sampled *)
Theorem C119_devices_refuted : forall V (draw : V -> V -> V -> V -> V) (params : tree (list V)) mean std dev normal, length (leaves params) <> 1 -> (forall n, length (normal n) = n) ->
  swag_sample draw params (swag_returned true mean) (swag_returned true std) (swag_returned true dev) normal = Err TypeError.
Proof. exact (@swag_devices_raise). Qed.
Print Assumptions C119_devices_refuted.

(** or, with a single array of parameters, all its entries move together *)
Theorem C119_devices_shared_refuted : forall V (draw : V -> V -> V -> V -> V) k (v : list V) mean std dev normal z, normal 1 = [z] -> length mean = length v -> length std = length v -> length dev = length v ->
  exists w, swag_sample draw (Dict [(k, Leaf v)]) (swag_returned true mean) (swag_returned true std) (swag_returned true dev) normal = Ok (Dict [(k, Leaf w)]) /\
    forall i m s d, nth_error mean i = Some m -> nth_error std i = Some s -> nth_error dev i = Some d -> nth_error w i = Some (draw m s d z).
Proof. exact (@swag_devices_shared). Qed.
Print Assumptions C119_devices_shared_refuted.

Example C119_case :
  let paths := [["model"; "params"; "dense"; "kernel"]; ["model"; "params"; "scale"]]%string in
  rmap ravel (bind (extract frozen_net paths) (fun T => swag_sample_paths frozen_net paths (swag_flat T))) = Ok (ravel frozen_net) /\
  rmap ravel (bind (extract frozen_net two_paths) (fun T => swag_sample_paths frozen_net two_paths (swag_flat T))) = Ok [4; 3; 5; 6; 1; 2] /\
  swag_sample (fun m s d z => m + s * z + d) (Dict [("a", Leaf [0; 0]); ("b", Leaf [0])])%string (Vec [1; 2; 3]) (Vec [1; 1; 2]) (Vec [0; 0; 5]) (fun n => seq 1 n)
    = Ok (Dict [("a", Leaf [2; 4]); ("b", Leaf [14])])%string.
Proof. vm_compute. auto. Qed.

(** ==== C120: Laplace with freeze function ==== *)

Theorem C120_frozen : forall V (draw : V -> V -> V -> V) (mean noise : tree (list V)) (hess : list (path * list V)) decoded, NoDup (map fst hess) ->
  Forall (fun ph => fst ph <> [] /\ exists m e, leaf_at mean (fst ph) m /\ leaf_at noise (fst ph) e /\ length m = length (snd ph) /\ length e = length (snd ph)) hess -> Permutation (map fst hess) decoded ->
  exists state sample, laplace_state_paths mean (map fst hess) (map (fun ph => Leaf (snd ph)) hess) = Ok state /\ laplace_sample_paths draw state decoded noise = Ok sample /\
    (forall p h m e, In (p, h) hess -> leaf_at mean p m -> leaf_at noise p e -> exists v, leaf_at sample p v /\ pointwise draw m h e v) /\
    same_outside (map fst hess) sample mean.
Proof. exact (@laplace_paths). Qed.
Print Assumptions C120_frozen.
Example C120_case_hypotheses : let hess := combine two_paths [[1; 2]; [1; 1; 1]] in NoDup (map fst hess) /\
  Forall (fun ph => fst ph <> [] /\ exists m e, leaf_at frozen_net (fst ph) m /\ leaf_at frozen_net (fst ph) e /\ length m = length (snd ph) /\ length e = length (snd ph)) hess /\ Permutation (map fst hess) (rev two_paths).
Proof.
  cbn zeta. split; [lit|]. split; [|apply Permutation_rev].
  repeat constructor; try discriminate; do 2 eexists; repeat split; reflexivity.
Qed.

Example C120_case :
  bind (laplace_state_paths frozen_net two_paths [Leaf [1; 2]; Leaf [1; 1; 1]]) (fun s => laplace_sample_paths affine s (rev two_paths) frozen_net) =
    Ok (Dict [("model", Dict [("params", Dict [("dense", Dict [("kernel", Leaf [2; 4; 6]); ("bias", Leaf [4])]); ("scale", Leaf [10; 18])])])])%string.
Proof. vm_compute. reflexivity. Qed.
