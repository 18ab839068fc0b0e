(** Model of the reliability diagram drawn by fortuna/metric/classification.py
    (compute_counts_confs_accs with plot=True, lines 89-93): the bins whose confidence is not
    zero are handed to plot_reliability_diagram.  Plot options other than labels only change
    the looks of the figure. *)
From Coq Require Import List ZArith QArith String.
From Verif Require Import Lib MetricModel PlotModel.
Import ListNotations.
Open Scope Q_scope.

(** lines 90 and 93: confs != 0 selects in both arrays *)
Definition shown (bs : list bin) : list bin := filter (fun b => negb (Qeq_bool (b_conf b) 0)) bs.
Definition plot_bins (argsort : list Q -> list nat) (preds : list Z) (probs : arr) (targets : list Z) (names : labels)
    : result (list (list (Q * Q) * option string)) :=
  bind (bins_of preds (confidences probs) targets) (fun bs =>
  plot_reliability argsort (One (map b_acc (shown bs))) (One (map b_conf (shown bs))) names).
