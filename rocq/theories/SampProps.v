(** Properties of the samples of loaders of inputs and targets (C148). *)
From Coq Require Import List Arith.
From Verif Require Import Lib LoaderModel LoaderSpec SampModel SampSpec SampProofs.
Import ListNotations.

(** C148: the first n rows that the draws select; the same draws select the same rows of inputs,
    targets and pairs *)
Theorem C148_rows : forall X draw n fuel (l : list (list X)), 1 <= fuel ->
  (n <= length (stream draw l fuel) -> exists out, sample1 fuel draw n l = Some out /\ concat out = firstn n (stream draw l fuel) /\ Forall (fun b => b <> []) out) /\
  (length (stream draw l fuel) < n -> sample1 fuel draw n l = None).
Proof. exact (@sample_stream). Qed.
Print Assumptions C148_rows.
Theorem C148_aligned : forall X Y draw n fuel (l : list (batch X Y)), aligned l ->
  sample1 fuel draw n (map fst l) = option_map (map fst) (sample fuel draw n l) /\ sample1 fuel draw n (map snd l) = option_map (map snd) (sample fuel draw n l).
Proof. exact (@sample_aligned). Qed.
Print Assumptions C148_aligned.
Example C148_case_aligned : aligned [([10;20],[1;2]); ([30],[3])].
Proof. repeat constructor. Qed.
Theorem C148_replacement_refuted : forall X draw n fuel (l : list (list X)) out, NoDup (concat l) -> n <= length (pass_rows draw l 0) ->
  sample1 fuel draw n l = Some out -> NoDup (concat out).
Proof. exact (@sample_distinct). Qed.
Print Assumptions C148_replacement_refuted.
Example C148_case : let draw := fun i => if Nat.even i then [true; false] else [true; true] in
  sample1 3 draw 3 [[10; 20]] = Some [[10]; [10; 20]] /\ sample1 3 draw 3 [[1; 2]] = Some [[1]; [1; 2]] /\
  sample 3 draw 3 [([10; 20], [1; 2])] = Some [([10], [1]); ([10; 20], [1; 2])] /\ stream draw [[10; 20]] 3 = [10; 10; 20; 10] /\
  sample1 2 (fun _ => [false; true]) 3 [[10; 20]] = None.
Proof. repeat split. Qed.
