(** Properties C127-C128: spectral normalisation over a training run, and pretrained transformers. *)
From Coq Require Import List Arith Bool String Reals.
From Verif Require Import Lib NestedModel NestedSpec FreezeSpec PredSpec SngpModel SngpSpec TfmModel TfmSpec TfmProofs TfmProofs2 TfmCases.
From Verif Require Import Lit.
From Verif Require Import EnsSpec TreeCases.
Import ListNotations.
Local Notation length := List.length.
Local Notation concat := List.concat.
Open Scope R_scope.

(** ==== C127 ==== *)

(** repeated training steps on one kernel drive its effective gain to the bound, from any start
    that is not orthogonal to the kernel's main direction *)
Theorem C127_plain_converges : forall n_in n_out iteration m w s a b u v e, (1 <= iteration)%nat -> 0 < m -> 0 < e ->
  top_singular n_in n_out w s a b -> / 10 ^ 6 * (1 + norm n_out u) <= s * inner n_out u b ->
  exists N, forall n, (N <= n)%nat ->
    gain_at_most n_in n_out (last (fst (sn_run Plain_net n_in n_out iteration m (repeat (true, w) n) (u, v))) w) (m + e).
Proof. exact (@plain_converges). Qed.
Print Assumptions C127_plain_converges.
Example C127_case_hypotheses : top_singular 1 1 w3 3 one one /\ / 10 ^ 6 * (1 + norm 1 one) <= 3 * inner 1 one one.
Proof.
  assert (N : norm 1 one = 1) by (rewrite norm1; unfold one; lra). split.
  - split; [exact N|]. split; [exact N|]. split; [exact gain3|]. split; intros [|j] H; try lia; rewrite rover1; unfold w3, one; lra.
  - rewrite N. unfold inner. rewrite rover1. pose proof e6_small. unfold one. lra.
Qed.

(** n training steps are one step with n times the power iterations *)
Theorem C127_plain_repeated : forall n_in n_out iteration m w u v n, (1 <= iteration)%nat -> (1 <= n)%nat ->
  let once := sn_run Plain_net n_in n_out (n * iteration) m [(true, w)] (u, v) in
  let many := sn_run Plain_net n_in n_out iteration m (repeat (true, w) n) (u, v) in
  snd many = snd once /\ same_matrix (last (fst many) w) (last (fst once) w).
Proof. exact (@plain_repeated). Qed.
Print Assumptions C127_plain_repeated.

(** evaluation uses the kernel of the training step before it, and keeps the vectors *)
Theorem C127_plain_evaluation : forall n_in n_out iteration m w u v, (1 <= iteration)%nat ->
  exists k k' s, sn_run Plain_net n_in n_out iteration m [(true, w); (false, w)] (u, v) = ([k; k'], s) /\
    same_matrix k' k /\ snd (sn_run Plain_net n_in n_out iteration m [(true, w)] (u, v)) = s.
Proof. exact (@plain_evaluation). Qed.
Print Assumptions C127_plain_evaluation.

(** transformers: the stored vectors never change *)
Theorem C127_transformer_frozen : forall n_in n_out iteration m calls u v,
  snd (sn_run Transformer n_in n_out iteration m calls (u, v)) = (u, v) /\
  Forall2 (fun k (c : bool * (nat -> nat -> R)) => forall i j, k i j = snd c i j / Rmax (stored_estimate n_in n_out (snd c) u v / m) 1)
    (fst (sn_run Transformer n_in n_out iteration m calls (u, v))) calls.
Proof. exact (@transformer_frozen). Qed.
Print Assumptions C127_transformer_frozen.

(** so that with the small initial vectors no kernel is normalised *)
Theorem C127_transformer_unnormalized : forall n_in n_out iteration m calls u v s, 0 < m -> 0 <= s ->
  (forall t w, In (t, w) calls -> gain_at_most n_in n_out w s) -> norm n_out u * norm n_in v * s <= m ->
  Forall2 (fun k (c : bool * (nat -> nat -> R)) => same_matrix k (snd c)) (fst (sn_run Transformer n_in n_out iteration m calls (u, v))) calls.
Proof. exact (@transformer_unnormalized). Qed.
Print Assumptions C127_transformer_unnormalized.

(** the bound on the gain is not enforced, however long the training *)
Theorem C127_transformer_bound_refuted : exists w u v, norm 1 u = 5 / 100 /\ norm 1 v = 5 / 100 /\
  (forall iteration flags, Forall (fun k => ~ gain_at_most 1 1 k (95 / 100)) (fst (sn_run Transformer 1 1 iteration (95 / 100) (map (fun t => (t, w)) flags) (u, v)))) /\
  Forall (fun k => gain_at_most 1 1 k (95 / 100)) (fst (sn_run Plain_net 1 1 1 (95 / 100) [(true, w)] (u, v))).
Proof. exact (@transformer_bound_refuted). Qed.
Print Assumptions C127_transformer_bound_refuted.
Example C127_case : exists k, fst (sn_run Plain_net 1 1 1 (95 / 100) [(true, w3)] (small, small)) = [k] /\ k 0%nat 0%nat = 95 / 100.
Proof. exact plain_step. Qed.

(** ==== C128 ==== *)
Theorem C128_class_chosen : forall (C : Type) (name : C -> string) (cs : list C) archs, NoDup (map name cs) -> cs <> [] ->
  exists c, get_model_class name (Several cs) (Some archs) = Ok c /\
    (first_named name cs (concat (map accepted archs)) c \/
     (forall n c', In n (concat (map accepted archs)) -> In c' cs -> name c' <> n) /\ exists rest, cs = c :: rest).
Proof. exact (@class_chosen). Qed.
Print Assumptions C128_class_chosen.
Example C128_case_classes : NoDup ["FlaxSNGPBertExtractorForSequenceClassification"; "FlaxSNGPRobertaExtractorForSequenceClassification"]%string /\
  get_model_class (fun c => c) (Several ["A"; "B"]%string) (Some ["B"%string]) = Ok "B"%string.
Proof. split; [lit|reflexivity]. Qed.
Theorem C128_architectures_none : forall (C : Type) (name : C -> string) (cs : list C) c,
  get_model_class name (Several cs) None = Err TypeError /\ get_model_class name (One c) None = Ok c.
Proof. exact (@architectures_none). Qed.
Print Assumptions C128_architectures_none.

(** the shipped mapping *)
Theorem C128_shipped : forall (V : Type) (load : string -> list (string * tree V)) config architectures,
  (In config ["bert"; "distilbert"; "roberta"]%string ->
     exists c, from_pretrained (fun c => c) shipped_mapping load config architectures = Ok (c, restructure (load c)) /\
     c = (if String.eqb config "bert" then "FlaxSNGPBertExtractorForSequenceClassification"
          else if String.eqb config "distilbert" then "FlaxSNGPDistilBertExtractorForSequenceClassification"
          else "FlaxSNGPRobertaExtractorForSequenceClassification")%string) /\
  (~ In config ["bert"; "distilbert"; "roberta"]%string -> from_pretrained (fun c => c) shipped_mapping load config architectures = Err ValueError).
Proof. exact (@shipped). Qed.
Print Assumptions C128_shipped.

(** loaded parameters are regrouped into collections, nothing lost *)
Theorem C128_collections : forall (V : Type) (loaded : list (string * tree V)),
  exists p, assoc_get "params" (restructure loaded) = Some (Dict p) /\
    assoc_get "spectral_stats" (restructure loaded) = unless_empty (assoc_get "spectral_stats" loaded) /\
    assoc_get "batch_stats" (restructure loaded) = unless_empty (assoc_get "batch_stats" loaded) /\
    (forall k, ~ In k ["params"; "spectral_stats"; "batch_stats"]%string -> assoc_get k (restructure loaded) = None) /\
    (forall k, assoc_get k p = if String.eqb k "spectral_stats" || String.eqb k "batch_stats" then None else assoc_get k loaded).
Proof. exact (@restructure_spec). Qed.
Print Assumptions C128_collections.
Theorem C128_round_trip : forall (V : Type) (variables rp : list (string * tree V)) s, NoDup (map fst rp) ->
  assoc_get "spectral_stats" variables = Some s -> s <> Dict [] -> assoc_get "params" variables = Some (Dict rp) ->
  assoc_get "spectral_stats" rp = None -> assoc_get "batch_stats" rp = None ->
  exists random p, init_weights variables None [] = Ok (Dict random, []) /\ assoc_get "params" (restructure random) = Some (Dict p) /\
    (forall k, assoc_get k p = assoc_get k rp) /\ assoc_get "spectral_stats" (restructure random) = Some s /\ assoc_get "batch_stats" (restructure random) = None.
Proof. exact (@round_trip). Qed.
Print Assumptions C128_round_trip.

(** missing weights are freshly initialised, the others kept *)
Theorem C128_missing_filled : forall (V : Type) (variables rp p : list (string * tree V)) s missing,
  assoc_get "spectral_stats" variables = Some s -> assoc_get "params" variables = Some (Dict rp) ->
  unique_keys (Dict rp) -> unique_keys s -> assoc_get "spectral_stats" rp = None -> unique_keys (Dict p) ->
  (forall q, leaf_path (Dict p) q -> exists v, fresh_leaf s (Dict rp) q v) ->
  (forall q, In q missing -> ~ leaf_path (Dict p) q /\ exists v, fresh_leaf s (Dict rp) q v) ->
  exists t, init_weights variables (Some p) missing = Ok (t, []) /\
    forall q v, leaf_at t q v <-> leaf_at (Dict p) q v \/ (In q missing /\ fresh_leaf s (Dict rp) q v).
Proof. exact (@missing_filled). Qed.
Print Assumptions C128_missing_filled.
Example C128_case_missing : exists rp s, assoc_get "spectral_stats" fresh_variables = Some s /\ assoc_get "params" fresh_variables = Some (Dict rp) /\
  unique_keys (Dict rp) /\ unique_keys s /\ assoc_get "spectral_stats" rp = None /\ unique_keys (Dict checkpoint) /\
  (forall q, leaf_path (Dict checkpoint) q -> exists v, fresh_leaf s (Dict rp) q v) /\ (forall q, In q absent -> ~ leaf_path (Dict checkpoint) q /\ exists v, fresh_leaf s (Dict rp) q v).
Proof.
  eexists. eexists. split; [reflexivity|]. split; [reflexivity|]. split; [uniq|]. split; [uniq|]. split; [reflexivity|]. split; [uniq|]. split.
  - intros q [v H]. pose proof (paths_complete _ _ _ H) as P. cbn in P. destruct P as [P|[P|[P|[P|[]]]]]; subst q; cbn in H; try discriminate H; eexists; left; reflexivity.
  - intros q [<-|[<-|[<-|[]]]]; (split; [intros [v H]; discriminate H|]); [eexists; left; reflexivity| |]; eexists; right; eexists; (split; [reflexivity|]); reflexivity.
Qed.
(** a weight reported missing that the model does not have *)
Theorem C128_unknown_missing_raises : forall (V : Type) (variables rp p : list (string * tree V)) s missing q,
  assoc_get "spectral_stats" variables = Some s -> assoc_get "params" variables = Some (Dict rp) ->
  unique_keys (Dict rp) -> unique_keys s -> assoc_get "spectral_stats" rp = None ->
  In q missing -> (forall v, ~ fresh_leaf s (Dict rp) q v) ->
  init_weights variables (Some p) missing = Err KeyError.
Proof. exact (@unknown_missing_raises). Qed.
Print Assumptions C128_unknown_missing_raises.
Theorem C128_fresh_weights : forall (V : Type) (variables rp : list (string * tree V)) s missing,
  assoc_get "spectral_stats" variables = Some s -> assoc_get "params" variables = Some (Dict rp) ->
  unique_keys (Dict rp) -> assoc_get "spectral_stats" rp = None ->
  exists t, init_weights variables None missing = Ok (t, missing) /\ forall q v, leaf_at t q v <-> fresh_leaf s (Dict rp) q v.
Proof. exact (@fresh_weights). Qed.
Print Assumptions C128_fresh_weights.
Theorem C128_no_statistics_raises : forall (V : Type) (variables : list (string * tree V)) params missing,
  assoc_get "spectral_stats" variables = None -> init_weights variables params missing = Err KeyError.
Proof. exact (@no_statistics_raises). Qed.
Print Assumptions C128_no_statistics_raises.

(** calls with given parameters leave the model alone *)
Theorem C128_call_given : forall (V : Type) (own : list (string * tree V)) p m train, NoDup (map fst m) -> assoc_get "params" m = None ->
  let r := transformer_call own (Some p) (Some m) train in
  assoc_get "params" (mc_variables (fst r)) = Some p /\ (forall k, k <> "params"%string -> assoc_get k (mc_variables (fst r)) = assoc_get k m) /\
  mc_mutable (fst r) = (if train then Some (map fst m) else None) /\ snd r = own.
Proof. exact (@call_given). Qed.
Print Assumptions C128_call_given.

(** calls without parameters overwrite the model's own collections *)
Theorem C128_own_overwritten : forall (V : Type) (own : list (string * tree V)) m train k t, NoDup (map fst m) -> assoc_get k m = Some t ->
  assoc_get k (snd (transformer_call own None (Some m) train)) = Some t /\
  (forall p train', assoc_get k (mc_variables (fst (transformer_call (snd (transformer_call own None (Some m) train)) None None train'))) = Some t /\
                    snd (transformer_call own (Some p) (Some m) train') = own).
Proof. exact (@own_overwritten). Qed.
Print Assumptions C128_own_overwritten.
Example C128_case_call : let m := [("batch_stats"%string, Leaf 4%nat); ("spectral_stats"%string, Leaf 5%nat)] in NoDup (map fst m) /\ assoc_get "params" m = None /\
  snd (transformer_call [("params"%string, Leaf 1%nat)] None (Some m) true) <> [("params"%string, Leaf 1%nat)].
Proof. cbn zeta. split; [lit|]. split; [reflexivity|]. vm_compute. discriminate. Qed.
Theorem C128_sngp_init : forall (V : Type) features (own gp : list (string * tree V)), unique_keys (Dict gp) ->
  ((2 <= length features)%nat -> sngp_transformer_init features own gp = Err ValueError) /\
  ((length features <= 1)%nat -> exists t, sngp_transformer_init features own gp = Ok t /\
    (forall q v, leaf_at (Dict gp) q v -> leaf_at t q v) /\
    (forall q v, leaf_at t q v -> leaf_at (Dict gp) q v \/ leaf_at (Dict own) q v) /\
    (forall q v, leaf_at (Dict own) q v -> at_path (Dict gp) q = None -> (forall p w, prefix_of p q -> ~ leaf_at (Dict gp) p w) -> leaf_at t q v)).
Proof. exact (@sngp_init_spec). Qed.
Print Assumptions C128_sngp_init.
Theorem C128_outputs : forall (O M : Type) (call : option M -> hf_output O M) mutable o rest m,
  (call mutable = With_logits o \/ call mutable = Plain_out o \/ call mutable = Tuple_out o rest -> hf_apply call false mutable = Ok (Plain_out o, None)) /\
  (call mutable = With_logits o \/ call mutable = Plain_out o \/ call mutable = Tuple_out o rest -> mutable = None -> hf_apply call true mutable = Ok (Plain_out o, None)) /\
  (call mutable = With_mutable (Plain_out o) m -> mutable <> None -> hf_apply call true mutable = Ok (Plain_out o, Some m)).
Proof. exact (@outputs_spec). Qed.
Print Assumptions C128_outputs.
Theorem C128_logits_kept : forall (O M : Type) (call : option M -> hf_output O M) c m (o : O),
  call (Some c) = With_mutable (With_logits o) m -> hf_apply call true (Some c) = Ok (With_logits o, Some m).
Proof. exact (@logits_kept). Qed.
Print Assumptions C128_logits_kept.
Open Scope string_scope.
Open Scope nat_scope.
Example C128_case :
  (exists filled, init_weights fresh_variables (Some checkpoint) absent = Ok (Dict filled, []) /\
    from_pretrained (fun c => c) shipped_mapping (fun _ => filled) "bert" None =
      Ok ("FlaxSNGPBertExtractorForSequenceClassification",
          [("params", Dict [("bert", Dict [("w", Leaf 10); ("b", Leaf 20)]); ("pre_classifier", Dict [("kernel", Leaf 3)])]);
           ("spectral_stats", Dict [("pre_classifier", Dict [("u", Leaf 4); ("v", Leaf 5)])])])) /\
  init_weights fresh_variables (Some checkpoint) [] = Ok (Dict checkpoint, []) /\
  get_model_class (fun c : string => c) (Several ["A"; "FlaxB"; "C"]) (Some ["B"; "C"]) = Ok "FlaxB" /\
  get_model_class (fun c : string => c) (Several ["A"; "FlaxB"; "C"]) (Some ["D"]) = Ok "A".
Proof. exact case_load. Qed.
