From Coq Require Import List Arith Lia Bool String Permutation Sorting.Sorted.
From Verif Require Import Lib NestedModel NestedSpec NestedProofs NestedProofs2 FreezeModel FreezeSpec FreezeProofs LapModel LapSpec LapProofs3 FlatModel FlatSpec FlatProofs FlatProofs2.
Import ListNotations.
Open Scope list_scope.
Local Notation length := List.length.
Local Notation concat := List.concat.

(** ---- eleven arrays of one entry ---- *)
Definition eleven_keys : list string := ["a"; "b"; "c"; "d"; "e"; "f"; "g"; "h"; "i"; "j"; "k"]%string.
Definition eleven : tree (list nat) := Dict [("model", Dict [("params", Dict (map (fun k => (k, Leaf [0])) eleven_keys))])]%string.
Definition eleven_paths : list path := map (fun k => ["model"; "params"; k]%string) eleven_keys.
Definition eleven_mean : list nat := seq 1 11.

Lemma advi_order_refuted : exists (init : tree (list nat)) f paths decoded mean log_std noise state sample p m v,
  get_trainable_paths init (Some f) = Ok paths /\ decode (option_map via_checkpoint (encode (Some paths))) = Some decoded /\ Permutation paths decoded /\
  advi_state_paths init paths mean log_std = Ok state /\
  advi_sample_fitted (fun m s u => m + s * u) init paths decoded state noise = Ok sample /\
  Forall (eq 0) noise /\ at_path state (p ++ ["mean"%string]) = Some (Leaf m) /\ leaf_at sample p v /\ v <> m.
Proof.
  exists eleven, (fun _ _ => "trainable"%string), eleven_paths. eexists. exists eleven_mean, (repeat 1 11), (repeat 0 11). eexists. eexists.
  exists ["model"; "params"; "c"]%string, [3], [11].
  split; [vm_compute; reflexivity|]. split; [vm_compute; reflexivity|]. split.
  - apply NoDup_Permutation.
    + vm_compute. repeat constructor; cbn [In]; intuition discriminate.
    + repeat constructor; cbn [In]; intuition discriminate.
    + intros x. cbn. tauto.
  - split; [vm_compute; reflexivity|]. split; [vm_compute; reflexivity|]. split; [repeat constructor|]. split; [vm_compute; reflexivity|]. split; [vm_compute; reflexivity|discriminate].
Qed.

(** keys that are not in alphabetical order *)
Definition dense : tree (list nat) := Dict [("model", Dict [("params", Dict [("kernel", Leaf [1; 2]); ("bias", Leaf [3])])])]%string.
Lemma swag_order_refuted : exists (params T : tree (list nat)) f paths sample p v w,
  unique_keys params /\ get_trainable_paths params (Some f) = Ok paths /\ extract params paths = Ok T /\
  swag_sample_paths params paths (swag_flat T) = Ok sample /\ leaf_at T p v /\ leaf_at sample p w /\ v <> w.
Proof.
  exists dense. eexists. exists (fun _ _ => "trainable"%string). do 2 eexists. exists ["model"; "params"; "kernel"]%string, [1; 2], [3; 1].
  split; [cbn; repeat split; repeat constructor; cbn [In]; intuition discriminate|]. repeat (split; [vm_compute; reflexivity|]). discriminate.
Qed.

(** ---- several devices ---- *)
Definition comb4 {V} (draw : V -> V -> V -> V -> V) (m s d z : list V) : list V := map (fun q => draw (fst (fst (fst q))) (snd (fst (fst q))) (snd (fst q)) (snd q)) (combine (combine (combine m s) d) z).
Lemma comb4_length {V} (draw : V -> V -> V -> V -> V) m s d z : length s = length m -> length d = length m -> length z = length m -> length (comb4 draw m s d z) = length m.
Proof. intros. unfold comb4. rewrite map_length, !combine_length. lia. Qed.
Lemma comb4_nth {V} (draw : V -> V -> V -> V -> V) m : forall s d z i a b c e, nth_error m i = Some a -> nth_error s i = Some b -> nth_error d i = Some c -> nth_error z i = Some e -> nth_error (comb4 draw m s d z) i = Some (draw a b c e).
Proof.
  unfold comb4. induction m as [|x m IH]; intros [|y s] [|w d] [|u z] [|i] a b c e H1 H2 H3 H4; try discriminate; cbn in *; [congruence|]. now apply IH.
Qed.

Lemma swag_one_device : forall V (draw : V -> V -> V -> V -> V) (params : tree (list V)) mean std dev normal z, unique_keys params ->
  length mean = length (ravel params) -> length std = length mean -> length dev = length mean -> normal (length mean) = z -> length z = length mean ->
  exists sample, swag_sample draw params (swag_returned false mean) (swag_returned false std) (swag_returned false dev) normal = Ok sample /\ same_structure params sample /\ same_sizes params sample /\
    (forall multi_device, swag_sample draw params (swag_checkpoint multi_device mean) (swag_checkpoint multi_device std) (swag_checkpoint multi_device dev) normal = Ok sample) /\
    forall i m s d e, nth_error mean i = Some m -> nth_error std i = Some s -> nth_error dev i = Some d -> nth_error z i = Some e -> nth_error (ravel sample) i = Some (draw m s d e).
Proof.
  intros V draw params mean std dev normal z U H1 H2 H3 Hz H4.
  assert (L : length (comb4 draw mean std dev z) = length (ravel params)) by (rewrite comb4_length; congruence).
  destruct (flat_any V params (comb4 draw mean std dev z) U) as [A _]. destruct (A L) as (sample & E & _ & S & Z & R).
  exists sample. assert (X : swag_sample draw params (Vec mean) (Vec std) (Vec dev) normal = Ok sample).
  { unfold swag_sample, swag_draw, swag_n_params. rewrite Hz, H4, Nat.eqb_refl. cbn [bind unravel_array]. exact E. }
  split; [exact X|]. split; [exact S|]. split; [exact Z|]. split; [intros [|]; exact X|]. intros i m s d e. rewrite R. apply comb4_nth.
Qed.

Lemma swag_devices_raise : forall V (draw : V -> V -> V -> V -> V) (params : tree (list V)) mean std dev normal, length (leaves params) <> 1 -> (forall n, length (normal n) = n) ->
  swag_sample draw params (swag_returned true mean) (swag_returned true std) (swag_returned true dev) normal = Err TypeError.
Proof.
  intros V draw params mean std dev normal H N. unfold swag_sample, swag_returned, swag_stat, swag_n_params, swag_draw. specialize (N 1). destruct (normal 1) as [|z [|? ?]]; try discriminate.
  cbn [bind unravel_array]. apply Nat.eqb_neq in H. now rewrite H.
Qed.

Lemma swag_devices_shared : forall V (draw : V -> V -> V -> V -> V) k (v : list V) mean std dev normal z, normal 1 = [z] -> length mean = length v -> length std = length v -> length dev = length v ->
  exists w, swag_sample draw (Dict [(k, Leaf v)]) (swag_returned true mean) (swag_returned true std) (swag_returned true dev) normal = Ok (Dict [(k, Leaf w)]) /\
    forall i m s d, nth_error mean i = Some m -> nth_error std i = Some s -> nth_error dev i = Some d -> nth_error w i = Some (draw m s d z).
Proof.
  intros V draw k v mean std dev normal z Hz H1 H2 H3. exists (comb4 draw mean std dev (repeat z (length mean))).
  assert (L : length (comb4 draw mean std dev (repeat z (length mean))) = length v) by (rewrite comb4_length; rewrite ?repeat_length; congruence).
  split.
  - unfold swag_sample, swag_returned, swag_stat, swag_n_params, swag_draw. rewrite Hz. cbn [bind unravel_array leaves map app length Nat.eqb]. unfold unravel. rewrite ravel_dict. cbn [sort_keys fold_right insert_key map snd ravel concat].
    rewrite app_nil_r. fold (comb4 draw mean std dev (repeat z (length mean))). rewrite L, Nat.eqb_refl. rewrite cut_dict. cbn [sort_keys fold_right insert_key readers map fst snd thread cut_tree]. rewrite <- L, firstn_all. reflexivity.
  - intros i m s d A B C. apply comb4_nth; try assumption.
    assert (I : i < length mean) by (apply nth_error_Some; congruence). rewrite (nth_error_nth' _ z) by now rewrite repeat_length. f_equal. apply nth_repeat.
Qed.
