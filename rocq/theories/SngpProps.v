(** Properties of SNGP: precision matrix, predictive variance, mean-field logits, spectral normalisation. *)
From Coq Require Import List Arith Bool String Reals Lra Lia.
From Verif Require Import Lib NestedModel NestedSpec TempModel TempSpec PredSpec LapModel LapSpec SngpModel SngpSpec SngpProofs SngpProofs2 SngpProofs3 SngpProofs4 SngpProofs5 SngpCases.
From Verif Require Import Lit EnsSpec TreeCases.
Import ListNotations.
Local Notation length := List.length.
Local Notation concat := List.concat.
Open Scope R_scope.

(** C84 *)
Theorem C84_exact : forall ridge batches i j, precision_after_epoch ridge None batches i j = (if (i =? j)%nat then ridge else 0) + gram (concat batches) i j.
Proof. exact (@precision_exact). Qed.
Print Assumptions C84_exact.
Theorem C84_bound : forall n ridge momentum batches v, 0 <= ridge -> check_momentum momentum = Ok tt ->
  symmetric n (precision_after_epoch ridge momentum batches) /\
  match momentum with
  | None => ridge * inner n v v <= quad n (precision_after_epoch ridge momentum batches) v
  | Some m => ridge * m ^ length batches * inner n v v <= quad n (precision_after_epoch ridge momentum batches) v
  end.
Proof. exact (@precision_bound). Qed.
Print Assumptions C84_bound.
Theorem C84_momentum : forall m, check_momentum (Some m) = Ok tt <-> 0 <= m <= 1.
Proof. exact (@momentum_check). Qed.
Print Assumptions C84_momentum.
Theorem C84_reset : forall mutable key callbacks ridge, unique_keys mutable -> key_occurs mutable key ->
  (forall q v, at_path mutable (q ++ [key]) = Some v -> exists n m, v = Leaf (Mat n m)) ->
  exists q n m m' mu, at_path mutable (q ++ [key]) = Some (Leaf (Mat n m)) /\ run_resets key (add_callback callbacks ridge) mutable = Ok mu /\
    at_path mu (q ++ [key]) = Some (Leaf (Mat n m')) /\ (forall i j, m' i j = if (i =? j)%nat then ridge else 0) /\
    forall p v, p <> (q ++ [key])%list -> (at_path mu p = Some (Leaf v) <-> at_path mutable p = Some (Leaf v)).
Proof. exact (@reset_occurs). Qed.
Print Assumptions C84_reset.
Example C84_case_hypotheses : let mutable := Dict [("head", Dict [("precision", Leaf (Mat 2 (fun _ _ => 7)))]); ("stats", Leaf Other)]%string in
  unique_keys mutable /\ key_occurs mutable "precision" /\ (forall q v, at_path mutable (q ++ ["precision"%string]) = Some v -> exists n m, v = Leaf (Mat n m)).
Proof.
  cbn zeta. split; [uniq|]. split; [exists ["head"%string], (Leaf (Mat 2 (fun _ _ => 7))); reflexivity|]. intros q v H. pose proof (paths_complete _ _ _ H) as P. cbn in P.
  destruct P as [P|[P|[P|[P|[]]]]]; symmetry in P; try (now destruct q).
  - now destruct q as [|a [|b q]].
  - rewrite P in H. cbn in H. injection H as <-. do 2 eexists. reflexivity.
  - now destruct q as [|a [|b q]].
Qed.
Theorem C84_reset_array : forall mutable key ridge p a, find_path mutable key [] = p -> at_path mutable p = Some (Leaf a) -> p <> [] ->
  match reset_value ridge a with
  | Ok b => exists m, reset_covariance key ridge mutable = Ok m /\ at_path m p = Some (Leaf b) /\ find_path m key [] = p /\
      forall q v, q <> p -> (at_path m q = Some (Leaf v) <-> at_path mutable q = Some (Leaf v))
  | Err e => reset_covariance key ridge mutable = Err e
  end.
Proof. exact (@reset_spec). Qed.
Print Assumptions C84_reset_array.
Theorem C84_missing : forall mutable key ridge, unique_keys mutable -> ~ key_occurs mutable key -> reset_covariance key ridge mutable = Err ValueError.
Proof. exact (@reset_missing). Qed.
Print Assumptions C84_missing.
Theorem C84_layer : forall chol n ridge momentum feats prec,
  covariance_layer chol n ridge momentum false true feats prec = (update_precision momentum feats prec, None) /\
  covariance_layer chol n ridge momentum true true feats prec = (prec, None) /\
  covariance_layer chol n ridge momentum false false feats prec = (prec, Some (map (covariance_diag chol n ridge prec) feats)).
Proof. exact (@training_layer). Qed.
Print Assumptions C84_layer.
Example C84_case : precision_after_epoch 1 None [[f_a; f_b]; [f_b]] 0%nat 0%nat = 2 /\ precision_after_epoch 1 None [[f_a; f_b]; [f_b]] 0%nat 1%nat = 2 /\ precision_after_epoch 1 None [[f_a; f_b]; [f_b]] 1%nat 1%nat = 7.
Proof. exact case_precision. Qed.

(** C85 *)
Theorem C85_kernel : forall chol n ridge P f g w, cholesky_factor n P (chol P) -> solves n P w g ->
  covariance_full chol n ridge P f g = ridge * inner n f w.
Proof. exact (@covariance_is_kernel). Qed.
Print Assumptions C85_kernel.
Example C85_case_solves : cholesky_factor 2 (fun i j => match i, j with O, O => 4 | O, _ | _, O => 2 | _, _ => 10 end) (fun i j => match i, j with O, O => 2 | S _, O => 1 | O, S _ => 0 | _, _ => 3 end) /\
  solves 2 (fun i j => match i, j with O, O => 4 | O, _ | _, O => 2 | _, _ => 10 end) (fun _ => 1) (fun i => match i with O => 6 | _ => 12 end).
Proof.
  split.
  - split; [intros i j H; assert (E : i = 0%nat /\ j = 1%nat) by lia; destruct E as [-> ->]; reflexivity|]. split; [intros [|i] H; lra|].
    intros [|[|i]] [|[|j]] H H'; try lia; unfold rover; cbn; lra.
  - intros [|[|i]] H; try lia; unfold rover; cbn; lra.
Qed.
Theorem C85_diagonal : forall chol n ridge P f, covariance_diag chol n ridge P f = covariance_full chol n ridge P f f.
Proof. exact (@covariance_diag_full). Qed.
Print Assumptions C85_diagonal.
Theorem C85_bounds : forall chol n ridge batches f, 0 < ridge ->
  cholesky_factor n (precision_after_epoch ridge None batches) (chol (precision_after_epoch ridge None batches)) ->
  0 <= covariance_diag chol n ridge (precision_after_epoch ridge None batches) f <= inner n f f.
Proof. exact (@variance_bounds). Qed.
Print Assumptions C85_bounds.
Theorem C85_factor_exists : forall n ridge batches, 0 < ridge -> exists L, cholesky_factor n (precision_after_epoch ridge None batches) L.
Proof. exact (@epoch_cholesky). Qed.
Print Assumptions C85_factor_exists.
Theorem C85_more_data : forall chol n ridge batches more f, 0 < ridge ->
  (forall bs, cholesky_factor n (precision_after_epoch ridge None bs) (chol (precision_after_epoch ridge None bs))) ->
  covariance_diag chol n ridge (precision_after_epoch ridge None (batches ++ more)) f <= covariance_diag chol n ridge (precision_after_epoch ridge None batches) f.
Proof. exact (@variance_more_data). Qed.
Print Assumptions C85_more_data.
Theorem C85_away : forall chol n ridge batches f, 0 < ridge ->
  cholesky_factor n (precision_after_epoch ridge None batches) (chol (precision_after_epoch ridge None batches)) ->
  (forall g, In g (concat batches) -> inner n g f = 0) ->
  covariance_diag chol n ridge (precision_after_epoch ridge None batches) f = inner n f f.
Proof. exact (@variance_away). Qed.
Print Assumptions C85_away.
Theorem C85_seen : forall chol n ridge batches f, 0 < ridge ->
  cholesky_factor n (precision_after_epoch ridge None batches) (chol (precision_after_epoch ridge None batches)) ->
  In f (concat batches) ->
  covariance_diag chol n ridge (precision_after_epoch ridge None batches) f <= ridge * inner n f f / (ridge + inner n f f) /\
  covariance_diag chol n ridge (precision_after_epoch ridge None batches) f < ridge.
Proof. exact (@variance_seen). Qed.
Print Assumptions C85_seen.
Theorem C85_features : forall features input_dim ks K b x, (1 <= features)%nat ->
  (forall s j, Rabs (rff input_dim s ks K b x j) <= Rabs s) /\ inner features (rff input_dim (rff_scale None features) ks K b x) (rff input_dim (rff_scale None features) ks K b x) <= 2.
Proof. exact (@rff_bounded). Qed.
Print Assumptions C85_features.
Theorem C85_stationary : forall d s ks K b b' x x' j, 0 < ks -> b' j = b j + PI / 2 ->
  rff d s ks K b x j * rff d s ks K b x' j + rff d s ks K b' x j * rff d s ks K b' x' j = s ^ 2 * cos (rover d (fun i => (x i - x' i) * K i j) / ks) /\
  (forall t delta, rover d (fun i => delta i * K i j) = ks * t -> rff d s ks K b (fun i => x i + delta i) j = rff d s ks K (fun j => b j + t) x j) /\
  ((forall i, (i < d)%nat -> x i = 0) -> b j = 0 -> rff d s ks K b x j = s /\ rff d s ks K b' x j = 0).
Proof. exact (@rff_stationary). Qed.
Print Assumptions C85_stationary.
Example C85_case : cholesky_factor 1 three (chol1 three) /\ covariance_diag chol1 1 1 three one_v = 1 / 4.
Proof. exact case_variance. Qed.

(** C86 *)
Theorem C86_mean_field : forall factor v logits, 0 <= v ->
  (factor < 0 -> mean_field_logits factor (Some v) logits = Err ValueError) /\
  (0 <= factor -> exists s, 1 <= s /\ s * s = 1 + v * factor /\ mean_field_logits factor (Some v) logits = Ok (map (fun z => z / s) logits)).
Proof. exact (@mean_field_spec). Qed.
Print Assumptions C86_mean_field.
Theorem C86_confidence : forall factor v v' logits o o' i, 0 <= v <= v' ->
  mean_field_logits factor (Some v) logits = Ok o -> mean_field_logits factor (Some v') logits = Ok o' ->
  (i < length logits)%nat -> (forall z, In z logits -> z <= nth i logits 0) ->
  nth i (softmax o') 0 <= nth i (softmax o) 0 <= nth i (softmax logits) 0 /\ (forall z, In z o' -> z <= nth i o' 0).
Proof. exact (@mean_field_confidence). Qed.
Print Assumptions C86_confidence.
Theorem C86_collections : forall (V F O : Type) (extract : list (string * V) -> F * list (string * V)) (gp_train : list (string * V) -> F -> O * list (string * V)) (gp_eval : list (string * V) -> F -> O) m,
  m <> [] -> exists ex gp,
  (forall k, (k = "sngp_random_features" \/ k = "sngp_laplace_covariance")%string -> assoc_get k ex = None /\ assoc_get k gp = assoc_get k m) /\
  (forall k, ~ (k = "sngp_random_features" \/ k = "sngp_laplace_covariance")%string -> assoc_get k ex = assoc_get k m /\ assoc_get k gp = None) /\
  sngp_apply extract gp_train gp_eval false m = Ok (gp_eval gp (fst (extract ex)), None) /\
  exists m', sngp_apply extract gp_train gp_eval true m = Ok (fst (gp_train gp (fst (extract ex))), Some m') /\
    (NoDup (map fst (snd (gp_train gp (fst (extract ex))))) ->
     forall k, assoc_get k m' = match assoc_get k (snd (gp_train gp (fst (extract ex)))) with Some v => Some v | None => assoc_get k (snd (extract ex)) end).
Proof. exact (@apply_spec). Qed.
Print Assumptions C86_collections.
Theorem C86_empty : forall (V F O : Type) (extract : list (string * V) -> F * list (string * V)) (gp_train : list (string * V) -> F -> O * list (string * V)) (gp_eval : list (string * V) -> F -> O) train,
  sngp_apply extract gp_train gp_eval train [] = Err UnboundLocalErr.
Proof. exact (@apply_empty). Qed.
Print Assumptions C86_empty.
Theorem C86_check_state : forall mutable, unique_keys mutable ->
  (key_occurs mutable "spectral_stats" -> check_spectral_state mutable = Ok tt) /\ (~ key_occurs mutable "spectral_stats" -> check_spectral_state mutable = Err ValueError).
Proof. exact (@check_state_spec). Qed.
Print Assumptions C86_check_state.
Example C86_case_state : let t := Dict [("a", Dict [("spectral_stats", Leaf Other)])]%string in unique_keys t /\ key_occurs t "spectral_stats".
Proof. cbn zeta. split; [uniq|]. exists ["a"%string], (Leaf Other). reflexivity. Qed.
Example C86_case : mean_field_logits 1 (Some 3) [4; 2] = Ok [2; 1].
Proof. exact case_mean_field. Qed.

(** C87 *)
Theorem C87_never_grows : forall n_in n_out iteration m upd ini w u v x,
  norm n_out (fun j => rover n_in (fun i => x i * normalized_kernel n_in n_out iteration m upd ini w u v i j)) <= norm n_out (fun j => rover n_in (fun i => x i * w i j)).
Proof. exact (@normalized_never_grows). Qed.
Print Assumptions C87_never_grows.
Theorem C87_identity : forall n_in n_out iteration m upd ini w u v i j, 0 < m ->
  sigma_estimate n_out (singular_vectors n_in n_out iteration upd ini w u v) <= m -> normalized_kernel n_in n_out iteration m upd ini w u v i j = w i j.
Proof. exact (@normalized_identity). Qed.
Print Assumptions C87_identity.
Theorem C87_bound : forall n_in n_out iteration m upd ini w u v s, 0 < m -> 0 <= s -> gain_at_most n_in n_out w s ->
  s <= sigma_estimate n_out (singular_vectors n_in n_out iteration upd ini w u v) ->
  gain_at_most n_in n_out (normalized_kernel n_in n_out iteration m upd ini w u v) m.
Proof. exact (@normalized_bound). Qed.
Print Assumptions C87_bound.
Theorem C87_estimate_below : forall n_in n_out iteration w u v s, (1 <= iteration)%nat -> 0 <= s -> gain_at_most n_in n_out w s ->
  0 <= sigma_estimate n_out (singular_vectors n_in n_out iteration true false w u v) <= s.
Proof. exact (@estimate_below_gain). Qed.
Print Assumptions C87_estimate_below.
Theorem C87_estimate_increases : forall n_in n_out k k' w u v, (1 <= k <= k')%nat ->
  / 10 ^ 12 <= sigma_estimate n_out (singular_vectors n_in n_out k true false w u v) ^ 2 ->
  sigma_estimate n_out (singular_vectors n_in n_out k true false w u v) <= sigma_estimate n_out (singular_vectors n_in n_out k' true false w u v).
Proof. exact (@estimate_increases). Qed.
Print Assumptions C87_estimate_increases.
Theorem C87_tracked : forall n_in n_out k m w u v, (1 <= k)%nat -> / 10 ^ 6 <= m ->
  norm n_out (fun j => rover n_in (fun i => snd (fst (singular_vectors n_in n_out k true false w u v)) i * normalized_kernel n_in n_out k m true false w u v i j)) <= m.
Proof. exact (@tracked_direction). Qed.
Print Assumptions C87_tracked.
Theorem C87_bound_refuted : exists n_in n_out w u v, forall iteration, ~ gain_at_most n_in n_out (normalized_kernel n_in n_out iteration (95 / 100) true false w u v) (95 / 100).
Proof. exact (@bound_refuted). Qed.
Print Assumptions C87_bound_refuted.
Example C87_case : sigma_estimate 1 (singular_vectors 1 1 1 true false w_three one_v one_v) = 3 /\ normalized_kernel 1 1 1 (95 / 100) true false w_three one_v one_v 0%nat 0%nat = 95 / 100.
Proof. exact case_spectral. Qed.
