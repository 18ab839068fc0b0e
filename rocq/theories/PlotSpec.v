(** Cells of a grid. *)
From Coq Require Import List Arith ZArith QArith Permutation Sorted.
Import ListNotations.
Local Open Scope nat_scope.
Local Open Scope list_scope.

(** row i of the cells has first coordinate i, column j has second coordinate j *)
Definition lattice (a b : list Q) : list (list (Q * Q)) := map (fun x => map (fun y => (x, y)) b) a.
(** an axis over values: its first and last points are 5/4 of the range beyond the extreme values *)
Definition spans (axis values : list Q) : Prop :=
  exists lo hi, In lo values /\ In hi values /\ (forall v, In v values -> (lo <= v <= hi)%Q) /\
    (nth 0 axis 0 == lo - (5 # 4) * (hi - lo))%Q /\ (nth (length axis - 1) axis 0 == hi + (5 # 4) * (hi - lo))%Q.
(** no two equal values *)
Definition apart (l : list Q) : Prop := forall i j, (i < j < length l)%nat -> ~ (nth i l 0 == nth j l 0)%Q.

(** the scattered inputs: one colour without predictions, otherwise one colour per input *)
Definition points_ok {C} (inputs : option (list (Q * Q))) (preds : option (list Z)) (base first second : C) (p : option (list (Q * Q) * (C + list C))) : Prop :=
  match inputs with
  | None => p = None
  | Some l => match preds with
              | None => p = Some (l, inl base)
              | Some ps => length ps = length l /\ exists cs, p = Some (l, inr cs) /\ length cs = length l /\ forall i, i < length l -> nth i cs second = if (nth i ps 0 =? 1)%Z then first else second
              end
  end.

(** an argsort: the positions, arranged so that the values increase *)
Definition argsorts (argsort : list Q -> list nat) : Prop :=
  forall c, Permutation (argsort c) (seq 0 (length c)) /\ StronglySorted Qle (map (fun i => nth i c 0%Q) (argsort c)).
(** confidences against confidence minus accuracy *)
Definition gaps (c a : list Q) : list (Q * Q) := map (fun i => (nth i c 0, nth i c 0 - nth i a 0)%Q) (seq 0 (length c)).
