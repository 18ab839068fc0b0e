(** Properties of the reliability diagram of a classifier (C153). *)
From Coq Require Import List Arith ZArith QArith.
From Verif Require Import Lib MetricModel MetricSpec PlotModel PlotSpec PlotProofs2 PlotCases BinPlotModel BinPlotSpec BinPlotProofs.
From Verif Require Import Lit.
Import ListNotations.
Open Scope Q_scope.
Local Notation length := List.length.

(** C153: the diagram has one point per bin with data, in the order of the bins *)
Theorem C153_diagram : forall argsort preds probs targets, argsorts argsort -> length preds = length (confidences probs) -> length targets = length (confidences probs) -> (forall c, In c (confidences probs) -> 0 < c) ->
  let l := points preds (confidences probs) targets in
  exists line, plot_bins argsort preds probs targets NoLabels = Ok [(line, None)] /\ Forall2 (fun i xy => mean_gap (members l i) xy) (inhabited l) line.
Proof. exact (@bin_diagram). Qed.
Print Assumptions C153_diagram.
Example C153_case_hypotheses : argsorts insertion_argsort /\ length [0; 1; 1]%Z = length (confidences (A1 [9 # 10; 1 # 2; 8 # 9])) /\ (forall c, In c (confidences (A1 [9 # 10; 1 # 2; 8 # 9])) -> 0 < c).
Proof. split; [exact insertion_argsorts|]. lit. Qed.
Theorem C153_mismatch : forall argsort preds probs targets names, length preds <> length (confidences probs) \/ length targets <> length (confidences probs) -> plot_bins argsort preds probs targets names = Err TypeError.
Proof. exact (@diagram_mismatch). Qed.
Print Assumptions C153_mismatch.
Theorem C153_empty_bins : forall preds confs targets bs i b, bins_of preds confs targets = Ok bs -> nth_error bs i = Some b -> members (points preds confs targets) i = [] -> b_count b = 0%nat /\ b_conf b = 0 /\ b_acc b = 0.
Proof. exact (@empty_bins). Qed.
Print Assumptions C153_empty_bins.
Example C153_case_empty : exists bs b, bins_of [0; 1; 1]%Z [9 # 10; 1 # 2; 8 # 9] [0; 0; 1]%Z = Ok bs /\ nth_error bs 2 = Some b /\ members (points [0; 1; 1]%Z [9 # 10; 1 # 2; 8 # 9] [0; 0; 1]%Z) 2 = [].
Proof. do 2 eexists. repeat split; vm_compute; reflexivity. Qed.
Theorem C153_zero_bin_refuted : exists preds confs targets, let l := points preds confs targets in
  forall argsort, argsorts argsort -> inhabited l = [0; 9]%nat /\ exists line, plot_bins argsort preds (A1 confs) targets NoLabels = Ok [(line, None)] /\ length line = 1%nat.
Proof. exact (@zero_bin_dropped). Qed.
Print Assumptions C153_zero_bin_refuted.
Example C153_case : inhabited (points [0; 1; 1]%Z [9 # 10; 1 # 2; 8 # 9] [0; 0; 1]%Z) = [3; 8]%nat /\
  match plot_bins insertion_argsort [0; 1; 1]%Z (A1 [9 # 10; 1 # 2; 8 # 9]) [0; 0; 1]%Z NoLabels with
  | Ok [(l, None)] => map (fun p => (Qred (fst p), Qred (snd p))) l = [(1 # 2, 1 # 2); (161 # 180, - 19 # 180)]
  | _ => False
  end.
Proof. vm_compute. repeat split. Qed.
