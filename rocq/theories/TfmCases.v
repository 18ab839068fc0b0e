(** Counterexamples and concrete cases for spectral normalisation over a run and pretrained transformers. *)
From Coq Require Import List Arith Lia Bool String Reals Lra.
From Verif Require Import Lib TempModel TempSpec LapModel PredSpec LapSpec NestedModel SngpModel SngpSpec SngpProofs SngpProofs4 TfmModel TfmSpec TfmProofs TfmProofs2.
Import ListNotations.
Open Scope R_scope.

Definition w3 : nat -> nat -> R := fun _ _ => 3.
Definition small : nat -> R := fun _ => 5 / 100.
Definition one : nat -> R := fun _ => 1.
Lemma rover1 f : rover 1 f = f 0%nat. Proof. unfold rover, rtotal. cbn. lra. Qed.
Lemma isum1 f : isum 1 f = f 0%nat. Proof. unfold isum, rsum. cbn. lra. Qed.
Lemma norm1 x : 0 <= x 0%nat -> norm 1 x = x 0%nat.
Proof. intros H. unfold norm, inner. rewrite rover1. now apply sqrt_square. Qed.
Lemma gain3 : gain_at_most 1 1 w3 3.
Proof.
  intros x. unfold norm, inner. rewrite !rover1. unfold w3. replace (x 0%nat * 3 * (x 0%nat * 3)) with ((3 * 3) * (x 0%nat * x 0%nat)) by ring.
  rewrite sqrt_mult by (try lra; apply Rle_0_sqr). rewrite sqrt_square by lra. lra.
Qed.
Lemma not_gain k : k 0%nat 0%nat = 3 -> ~ gain_at_most 1 1 k (95 / 100).
Proof. intros K G. specialize (G one). rewrite !norm1 in G by (try (unfold one; lra); rewrite rover1, K; unfold one; lra). rewrite rover1, K in G. unfold one in G. lra. Qed.
Lemma normalize1 x : 0 < x 0%nat -> / 10 ^ 6 <= x 0%nat -> l2_normalize 1 x 0%nat = 1.
Proof.
  intros P H. rewrite normalize_eq, dd_big, norm1 by (try lra; apply big_norm; rewrite norm1; lra). field. lra.
Qed.
Lemma e6_small : / 10 ^ 6 <= 1 / 10. Proof. replace (1 / 10) with (/ 10 ^ 1) by (cbn; lra). apply Rinv_le_contravar; [apply pow_lt; lra|]. apply Rle_pow; [lra | lia]. Qed.
Lemma plain_step : exists k, fst (sn_run Plain_net 1 1 1 (95 / 100) [(true, w3)] (small, small)) = [k] /\ k 0%nat 0%nat = 95 / 100.
Proof.
  rewrite run_cons. cbn [update_flag sn_run fst snd]. eexists. split; [reflexivity|]. unfold sn_call, normalized_kernel. cbn [fst snd].
  replace (sigma_estimate 1 _) with 3; [unfold sn_divisor; rewrite Rmax_left by lra; unfold w3; lra|].
  unfold singular_vectors. cbn [andb negb]. change (Nat.iter 1 (scan_body 1 1 w3) (small, small, kernel_apply 1 w3 small)) with (scan_body 1 1 w3 (small, small, kernel_apply 1 w3 small)).
  unfold scan_body, sigma_estimate. pose proof e6_small.
  assert (V0 : kernel_transpose 1 w3 small 0%nat = 15 / 100) by (unfold kernel_transpose; rewrite isum1; unfold w3, small; lra).
  set (v := l2_normalize 1 (kernel_transpose 1 w3 small)). assert (V : v 0%nat = 1) by (unfold v; apply normalize1; rewrite V0; lra).
  assert (K : kernel_apply 1 w3 v 0%nat = 3) by (unfold kernel_apply; rewrite isum1, V; unfold w3; lra).
  set (u := kernel_apply 1 w3 v) in *. rewrite isum1, K, normalize1; rewrite ?K; lra.
Qed.
Lemma all_three ks (l : list (bool * (nat -> nat -> R))) : (forall c, In c l -> snd c = w3) -> Forall2 (fun k c => same_matrix k (snd c)) ks l ->
  Forall (fun k => ~ gain_at_most 1 1 k (95 / 100)) ks.
Proof.
  intros H F. induction F as [|k c ks l Hk F IH]; constructor; [|apply IH; intros; apply H; now right].
  apply not_gain. rewrite Hk, (H c (or_introl eq_refl)). reflexivity.
Qed.
Theorem transformer_bound_refuted : exists w u v, norm 1 u = 5 / 100 /\ norm 1 v = 5 / 100 /\
  (forall iteration flags, Forall (fun k => ~ gain_at_most 1 1 k (95 / 100)) (fst (sn_run Transformer 1 1 iteration (95 / 100) (map (fun t => (t, w)) flags) (u, v)))) /\
  Forall (fun k => gain_at_most 1 1 k (95 / 100)) (fst (sn_run Plain_net 1 1 1 (95 / 100) [(true, w)] (u, v))).
Proof.
  exists w3, small, small. assert (N : norm 1 small = 5 / 100) by (rewrite norm1; unfold small; lra). split; [exact N|]. split; [exact N|]. split.
  - intros it flags.
    assert (F : Forall2 (fun k (c : bool * (nat -> nat -> R)) => same_matrix k (snd c)) (fst (sn_run Transformer 1 1 it (95 / 100) (map (fun t => (t, w3)) flags) (small, small))) (map (fun t => (t, w3)) flags)).
    { apply transformer_unnormalized with (s := 3); try lra; [|rewrite N; lra].
      intros t w H. apply in_map_iff in H as (b & E & _). injection E as <- <-. apply gain3. }
    refine (all_three _ _ _ F). intros c Hc. apply in_map_iff in Hc as (b & <- & _). reflexivity.
  - destruct plain_step as (k & E & K). refine (eq_ind_r (fun l => Forall (fun k => gain_at_most 1 1 k (95 / 100)) l) _ E). constructor; [|constructor]. intros x. unfold norm, inner. rewrite !rover1, K.
    replace (x 0%nat * (95 / 100) * (x 0%nat * (95 / 100))) with ((95 / 100 * (95 / 100)) * (x 0%nat * x 0%nat)) by ring.
    rewrite sqrt_mult by (try lra; apply Rle_0_sqr). rewrite sqrt_square by lra. lra.
Qed.

(** ---- loading ---- *)
Open Scope nat_scope.
Open Scope string_scope.
Definition fresh_variables : list (string * tree nat) :=
  [("params", Dict [("bert", Dict [("w", Leaf 1); ("b", Leaf 2)]); ("pre_classifier", Dict [("kernel", Leaf 3)])]);
   ("spectral_stats", Dict [("pre_classifier", Dict [("u", Leaf 4); ("v", Leaf 5)])])].
Definition checkpoint : list (string * tree nat) := [("bert", Dict [("w", Leaf 10); ("b", Leaf 20)])].
Definition absent : list path := [["pre_classifier"; "kernel"]; ["spectral_stats"; "pre_classifier"; "u"]; ["spectral_stats"; "pre_classifier"; "v"]].
Lemma case_load :
  (exists filled, init_weights fresh_variables (Some checkpoint) absent = Ok (Dict filled, []) /\
    from_pretrained (fun c => c) shipped_mapping (fun _ => filled) "bert" None =
      Ok ("FlaxSNGPBertExtractorForSequenceClassification",
          [("params", Dict [("bert", Dict [("w", Leaf 10); ("b", Leaf 20)]); ("pre_classifier", Dict [("kernel", Leaf 3)])]);
           ("spectral_stats", Dict [("pre_classifier", Dict [("u", Leaf 4); ("v", Leaf 5)])])])) /\
  init_weights fresh_variables (Some checkpoint) [] = Ok (Dict checkpoint, []) /\
  get_model_class (fun c : string => c) (Several ["A"; "FlaxB"; "C"]) (Some ["B"; "C"]) = Ok "FlaxB" /\
  get_model_class (fun c : string => c) (Several ["A"; "FlaxB"; "C"]) (Some ["D"]) = Ok "A".
Proof. split; [eexists; split; reflexivity|]. repeat split. Qed.
