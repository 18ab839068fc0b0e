(** Properties C24, C62, C66: schedules, clipping, weight-decay mask, random keys. *)
From Coq Require Import List ZArith QArith Bool String Reals.
From Verif Require Import Lib NestedModel NestedSpec FreezeModel FreezeSpec SchedModel SchedSpec SchedProofs SchedProofs2.
From Verif Require Import Lit.
Import ListNotations.
Open Scope Q_scope.
Open Scope list_scope.
Local Notation length := List.length.

(** C24 *)
Theorem C24_stepped_in_force : forall init bs f count s,
  NoDup (map fst bs) -> stepped_schedule init (Some bs) = Ok f -> scale_in_force bs count s -> f count == s * init.
Proof. exact (@stepped_in_force). Qed.
Print Assumptions C24_stepped_in_force.
Example C24_case_in_force : scale_in_force [(0%Z, 1); (30%Z, 1 # 100); (10%Z, 1 # 10)] 20 (1 # 10) /\ NoDup (map fst [(0%Z, 1); (30%Z, 1 # 100); (10%Z, 1 # 10)]).
Proof.
  split; [|lit]. exists 10%Z. split; [cbn; intuition|]. split; [lia|]. intros t' s' H L. cbn in H. destruct H as [H|[H|[H|[]]]]; injection H as <- <-; lia.
Qed.
Theorem C24_stepped_before_first : forall init bs f count,
  stepped_schedule init (Some bs) = Ok f -> (forall t s, In (t, s) bs -> (count < t)%Z) -> f count == init.
Proof. exact (@stepped_before_first). Qed.
Print Assumptions C24_stepped_before_first.
Theorem C24_stepped_errors : forall init bs,
  (stepped_schedule init bs = Err ValueError <-> exists l t s, bs = Some l /\ In (t, s) l /\ s < 0)
  /\ (forall e, stepped_schedule init bs = Err e -> e = ValueError).
Proof. exact (@stepped_errors). Qed.
Print Assumptions C24_stepped_errors.
Theorem C24_warmup_in_range : forall lr n b e w step, 0 <= lr -> (0 <= step)%Z ->
  0 <= linear_scheduler_with_warmup lr n b e w step <= lr.
Proof. exact (@warmup_in_range). Qed.
Print Assumptions C24_warmup_in_range.
Theorem C24_warmup_shape : forall lr n b e w step, (0 <= w)%Z -> (0 <= step)%Z ->
  let total := num_train_steps n b e in
  let f := linear_scheduler_with_warmup lr n b e w in
  ((step < w)%Z -> f step == lr * (inject_Z step / inject_Z w)) /\
  f w == lr /\
  ((w <= step <= total)%Z -> (w < total)%Z -> f step == lr * (inject_Z (total - step) / inject_Z (total - w))) /\
  ((w < total <= step)%Z -> f step == 0).
Proof. exact (@warmup_shape). Qed.
Print Assumptions C24_warmup_shape.
(** with a partial last batch the learning rate is 0 before training ends *)
Theorem C24_warmup_ends_early_refuted : exists lr n b e w step, 0 < lr /\ (0 < b <= n)%Z /\ (0 <= w)%Z /\
  (w <= step < (n + b - 1) / b * e)%Z /\ linear_scheduler_with_warmup lr n b e w step == 0.
Proof. exact (@warmup_ends_early). Qed.
Print Assumptions C24_warmup_ends_early_refuted.
Theorem C24_warmup_never_decays : forall lr n b e w step, (num_train_steps n b e <= w <= step)%Z ->
  linear_scheduler_with_warmup lr n b e w step == lr.
Proof. exact (@warmup_never_decays). Qed.
Print Assumptions C24_warmup_never_decays.
Theorem C24_clip_by_value : forall g c, 0 <= c ->
  Forall2 (Forall2 (fun z z' => - c <= z' <= c /\ (- c <= z <= c -> z' == z) /\ (c < z -> z' == c) /\ (z < - c -> z' == - c)))
          g (clip_by_value g c).
Proof. exact (@clip_by_value_spec). Qed.
Print Assumptions C24_clip_by_value.

Example C24_case :
  stepped_value 2 [(10, 1#4); (5, 1#2)]%Z 4 == 2 /\ stepped_value 2 [(10, 1#4); (5, 1#2)]%Z 7 == 1 /\
  stepped_value 2 [(10, 1#4); (5, 1#2)]%Z 10 == 1#2 /\
  map (fun s => Qred (linear_scheduler_with_warmup 1 100 10 2 4 s)) [0; 2; 4; 12; 20; 30]%Z = [0; 1#2; 1; 1#2; 0; 0] /\
  clip_by_value [[3; -(1#2)]; [-7]] 2 = [[2; -(1#2)]; [-2]].
Proof. repeat split. Qed.

Open Scope R_scope.
Theorem C24_clip_by_norm : forall g m, 0 <= m -> norm (clip_by_norm g m) <= m.
Proof. exact (@clip_norm_bound). Qed.
Print Assumptions C24_clip_by_norm.
Theorem C24_clip_by_norm_direction : forall g m, 0 <= m -> exists c, 0 <= c <= 1 /\ clip_by_norm g m = map (map (fun z => c * z)) g.
Proof. exact (@clip_norm_direction). Qed.
Print Assumptions C24_clip_by_norm_direction.
Theorem C24_clip_by_norm_small : forall g m, norm g + / 10 ^ 7 <= m -> clip_by_norm g m = g.
Proof. exact (@clip_norm_small). Qed.
Print Assumptions C24_clip_by_norm_small.
Theorem C24_clip_by_norm_nearly : forall g m, norm g <= m -> norm (subtract (clip_by_norm g m) g) <= / 10 ^ 7.
Proof. exact (@clip_norm_nearly). Qed.
Print Assumptions C24_clip_by_norm_nearly.
Close Scope R_scope.

Example C24_case_norm : (norm [[3]; [4]] = 5 /\ norm (clip_by_norm [[3]; [4]] 1) < 1 /\ clip_by_norm [[3]; [4]] 6 = [[3]; [4]])%R.
Proof. exact clip_case. Qed.

(** C62 *)
Theorem C62_keys_distinct : forall n s, NoDup (rng_gets n s) /\ length (rng_gets n s) = n /\ ~ In s (rng_gets n s).
Proof. exact (@rng_gets_distinct). Qed.
Print Assumptions C62_keys_distinct.
Theorem C62_variance_keys_distinct : forall s, fst (snd (variance_keys s)) <> snd (snd (variance_keys s)).
Proof. exact (@variance_keys_distinct). Qed.
Print Assumptions C62_variance_keys_distinct.
(** consecutive calls are not independent: epistemic key of one = aleatoric key of the next *)
Theorem C62_variance_keys_refuted : forall s,
  let '(s1, (a1, e1)) := variance_keys s in
  let '(s2, (a2, e2)) := variance_keys s1 in
  a2 = e1.
Proof. exact (@variance_keys_shared). Qed.
Print Assumptions C62_variance_keys_refuted.

Example C62_case : rng_gets 3 (Seed 0) = [Child (Seed 0) 0; Child (Child (Seed 0) 0) 0; Child (Child (Child (Seed 0) 0) 0) 0].
Proof. reflexivity. Qed.

(** C66 *)
Theorem C66_mask : forall V (params : tree V), unique_keys params -> (exists kvs, params = Dict kvs) ->
  exists mask, decay_mask params = Ok mask /\
  (forall q, (exists b, leaf_at mask q b) <-> (exists v, leaf_at params q v)) /\
  (forall q b, leaf_at mask q b ->
     (b = true <-> last q EmptyString <> "bias"%string /\
        forall p v, leaf_at params p v -> same_end q p -> ~ named_layer_norm p)).
Proof. exact (@mask_spec). Qed.
Print Assumptions C66_mask.
Example C66_case_unique : unique_keys (Dict [("layer_norm", Dict [("scale", Leaf 1%nat); ("bias", Leaf 2%nat)]); ("dense", Dict [("kernel", Leaf 3%nat); ("bias", Leaf 4%nat)])])%string.
Proof. uniq. Qed.
(** "model"/"net" joined contains "ln" *)
Theorem C66_mask_refuted : exists (params : tree nat) mask q,
  decay_mask params = Ok mask /\ leaf_at mask q false /\ last q EmptyString <> "bias"%string /\
  forall p v k c, leaf_at params p v -> In k p -> In c ["layernorm"; "layer_norm"; "ln"]%string -> ~ occurs_in_any_case c k.
Proof. exact (@mask_wrong). Qed.
Print Assumptions C66_mask_refuted.

Example C66_case :
  decay_mask (Dict [("dense", Dict [("kernel", Leaf 0%nat); ("bias", Leaf 1%nat)]); ("LayerNorm", Dict [("scale", Leaf 2%nat); ("bias", Leaf 3%nat)])])%string
  = Ok (Dict [("dense", Dict [("kernel", Leaf true); ("bias", Leaf false)]); ("LayerNorm", Dict [("scale", Leaf false); ("bias", Leaf false)])])%string.
Proof. reflexivity. Qed.
