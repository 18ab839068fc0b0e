(** Features computed by the transformers of SNGP (C172). *)
From Coq Require Import List Arith Bool Reals.
From Verif Require Import Lib LapModel SngpModel TempSpec PredSpec SngpSpec TfmModel TfmHeadModel TfmHeadSpec TfmHeadCases TfmHeadProofs TfmHeadProofs2.
Import ListNotations.
Open Scope R_scope.

(** C172: one vector of features for every text: the positive part (BERT, DistilBERT) or hyperbolic tangent
    (RoBERTa) of an affine function of its pooled vector, for DistilBERT of the vector of its first token; in
    training some are dropped and the others divided by the probability to be kept *)
Theorem C172_values : forall a n_in kernel bias rate train keep e fs, features a n_in kernel bias rate train keep e = Ok fs ->
  length fs = n_texts a e /\
  forall i f, nth_error fs i = Some f -> exists x, stands_for a e i x /\
  forall j, let y := squash a (rover n_in (fun k => x k * kernel k j) + bias j) in
    (train = false -> f j = y) /\ (train = true -> 0 <= rate < 1 -> f j = if keep i j then y / (1 - rate) else if Req_EM_T rate 0 then y else 0) /\
    (train = true -> rate = 1 -> f j = 0).
Proof. exact (@feature_values). Qed.
Print Assumptions C172_values.
Example C172_case_values : exists f g f' g', let e := fun train => q_encode (fill_inputs DistilBert 1 2 (fun ids => ids) q_text) train in
  features DistilBert 1 q_kernel q_bias (/ 2) false q_keep (e false) = Ok [f; g] /\ f 0%nat = / 2 /\ g 0%nat = 0 /\
  features DistilBert 1 q_kernel q_bias (/ 2) true q_keep (e true) = Ok [f'; g'] /\ f' 0%nat = 1 /\ g' 0%nat = 0.
Proof. exact q_values. Qed.

(** C172: features of BERT and DistilBERT are never negative, those of RoBERTa are between -1 and 1, in training between the bounds scaled by dropout *)
Theorem C172_bounds : forall a n_in kernel bias rate train keep e fs i f j, features a n_in kernel bias rate train keep e = Ok fs -> nth_error fs i = Some f ->
  0 <= rate < 1 -> let c := if train then / (1 - rate) else 1 in
  match a with Roberta => - c < f j < c | Bert | DistilBert => 0 <= f j end.
Proof. exact (@feature_bounds). Qed.
Print Assumptions C172_bounds.
(** C172: in predictions, distances between features are at most those between the vectors of the texts times the gain of the kernel *)
Theorem C172_distance : forall a n_in n_out kernel bias rate keep keep' e e' fs fs' i i' f f' x x' s,
  features a n_in kernel bias rate false keep e = Ok fs -> features a n_in kernel bias rate false keep' e' = Ok fs' ->
  nth_error fs i = Some f -> nth_error fs' i' = Some f' -> stands_for a e i x -> stands_for a e' i' x' -> gain_at_most n_in n_out kernel s ->
  norm n_out (fun j => f j - f' j) <= s * norm n_in (fun k => x k - x' k).
Proof. exact (@feature_distance). Qed.
Print Assumptions C172_distance.
Example C172_case_distance : gain_at_most 1 1 q_kernel (/ 2).
Proof. exact q_gain. Qed.

(** C172: spectral normalisation never makes this bound worse than that of the kernel trained, whatever singular vectors are stored *)
Theorem C172_distance_normalized : forall a n_in n_out iteration m upd ini w u v bias rate keep keep' e e' fs fs' i i' f f' x x' s,
  let kernel := normalized_kernel n_in n_out iteration m upd ini w u v in
  features a n_in kernel bias rate false keep e = Ok fs -> features a n_in kernel bias rate false keep' e' = Ok fs' ->
  nth_error fs i = Some f -> nth_error fs' i' = Some f' -> stands_for a e i x -> stands_for a e' i' x' -> gain_at_most n_in n_out w s ->
  norm n_out (fun j => f j - f' j) <= s * norm n_in (fun k => x k - x' k).
Proof. exact (@feature_distance_normalized). Qed.
Print Assumptions C172_distance_normalized.
(** C172: leaving out masks, token types, positions and head masks is the same as giving ones, zeros, the numbers
    from zero (BERT) or the library's positions (RoBERTa), and ones *)
Theorem C172_inputs {M : Type} : forall encode others updated a layers heads rp n_in kernel bias rate cd rd keep t train (mutable : option M) mask types positions hm,
  t_mask t = None -> t_types t = None -> t_positions t = None -> t_heads t = None -> a <> DistilBert ->
  filled_with 1 (t_ids t) mask -> filled_with 0 (t_ids t) types ->
  (a = Bert -> numbered (t_ids t) positions) -> (a = Roberta -> positions = rp (t_ids t)) ->
  length hm = layers -> Forall (fun r => length r = heads /\ Forall (eq 1%nat) r) hm ->
  sngp_call encode others updated a layers heads rp n_in kernel bias rate cd rd keep t train mutable =
  sngp_call encode others updated a layers heads rp n_in kernel bias rate cd rd keep
    {| t_ids := t_ids t; t_mask := Some mask; t_types := Some types; t_positions := Some positions; t_heads := Some hm |} train mutable.
Proof. exact (@inputs_written_out M). Qed.
Print Assumptions C172_inputs.
Example C172_case_inputs : filled_with 1 (t_ids q_text) [[1; 1]; [1; 1]]%nat /\ filled_with 0 (t_ids q_text) [[0; 0]; [0; 0]]%nat /\ numbered (t_ids q_text) [[0; 1]; [0; 1]]%nat /\
  Forall (fun r => length r = 2%nat /\ Forall (eq 1%nat) r) [[1; 1]]%nat.
Proof. exact q_inputs. Qed.

(** C172: DistilBERT rejects token types and positions, ignores head masks, and a missing mask is one of ones *)
Theorem C172_distilbert {M : Type} : forall encode others updated layers heads rp n_in kernel bias rate cd rd keep t train (mutable : option M) mask,
  (t_types t <> None \/ t_positions t <> None -> sngp_call encode others updated DistilBert layers heads rp n_in kernel bias rate cd rd keep t train mutable = Err TypeError) /\
  (t_types t = None -> t_positions t = None -> t_mask t = None \/ t_mask t = Some mask -> filled_with 1 (t_ids t) mask -> forall hm,
   sngp_call encode others updated DistilBert layers heads rp n_in kernel bias rate cd rd keep t train mutable =
   sngp_call encode others updated DistilBert layers heads rp n_in kernel bias rate cd rd keep
     {| t_ids := t_ids t; t_mask := Some mask; t_types := None; t_positions := None; t_heads := hm |} train mutable).
Proof. exact (@distilbert_inputs M). Qed.
Print Assumptions C172_distilbert.
(** C172: in predictions the model manager returns the features alone; in training it returns them with the new
    mutable collections, but as a tuple with further outputs unless return_dict is set *)
Theorem C172_manager {M : Type} : forall encode others updated a layers heads rp n_in kernel bias rate cd rd keep t train (mutable : option M) fs,
  accepted a t = Ok tt -> let k := fill_inputs a layers heads rp t in features a n_in kernel bias rate train keep (encode k train) = Ok fs ->
  let run := sngp_manager encode others updated a layers heads rp n_in kernel bias rate cd rd keep t train mutable in
  let resolved := match rd with Some b => b | None => cd end in
  (train = false -> run = Ok (Plain_out fs, None)) /\
  (forall m, train = true -> mutable = Some m -> resolved = true -> run = Ok (Plain_out fs, Some (updated k m))) /\
  (forall m, train = true -> mutable = Some m -> resolved = false -> run = Ok (Tuple_out fs (others (encode k train)), Some (updated k m))).
Proof. exact (@manager_outputs M). Qed.
Print Assumptions C172_manager.
Example C172_case_manager : exists fs, q_manager Roberta true true = Ok (Plain_out fs, Some 9%nat) /\ length fs = 2%nat.
Proof. exact q_plain. Qed.

(** C172: hence a configuration without return_dict gives a tuple to the Gaussian process in training *)
Theorem C172_tuple_refuted : exists fs rest m, q_manager Bert false true = Ok (Tuple_out fs rest, Some m).
Proof. exact q_tuple. Qed.
Print Assumptions C172_tuple_refuted.
