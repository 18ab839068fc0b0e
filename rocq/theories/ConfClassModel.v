(** Model of fortuna/conformal/classification: base.py, simple_prediction.py,
    adaptive_prediction.py, adaptive_conformal_classifier.py and
    maxcovfixprec_binary_classfication.py.

    Matrices are lists of rows.  Targets are labels below the number of columns.
    The assignment sets[idx] = nested list is modelled as assigning one inner list per
    index (object arrays indexed by 32-bit index arrays). *)
From Coq Require Import List Arith ZArith QArith Qminmax Bool.
From Verif Require Import Lib QuantModel ConfRegModel.
Import ListNotations.
Open Scope Q_scope.

(** ---- base.py:45-64 ---- *)
(** lines 51-53: conds, one row per test point *)
Definition cond1 (val_scores : list Q) (error s : Q) : bool :=
  Qlt_bool (inject_Z (Z.of_nat (length (filter (fun v => Qlt_bool s v) val_scores))))
           ((1 - error) * inject_Z (Z.of_nat (length val_scores + 1))).
Definition conds (val_scores : list Q) (test_scores : list (list Q)) (error : Q) : list (list bool) :=
  map (map (cond1 val_scores error)) test_scores.

Definition true_columns (row : list bool) : list nat :=
  map fst (filter snd (combine (seq 0 (length row)) row)).

(** jnp.unique: ascending without repetition *)
Fixpoint insert_nat (x : nat) (l : list nat) : list nat :=
  match l with
  | [] => [x]
  | y :: r => if (x <? y)%nat then x :: l else if (x =? y)%nat then l else y :: insert_nat x r
  end.
Definition unique_nat (l : list nat) : list nat := fold_right insert_nat [] l.

(** reshape(-1, us) of a flat list, [us >= 1] *)
Fixpoint chunks {A} (fuel us : nat) (l : list A) : list (list A) :=
  match fuel, l with
  | S f, _ :: _ => firstn us l :: chunks f us (skipn us l)
  | _, _ => []
  end.

(** sets[idx] = values *)
Fixpoint set_nth {A} (i : nat) (x : A) (l : list A) : list A :=
  match l, i with
  | [], _ => []
  | _ :: r, O => x :: r
  | y :: r, S j => y :: set_nth j x r
  end.
Definition assign {A} (idx : list nat) (values : list A) (l : list A) : list A :=
  fold_left (fun acc iv => set_nth (fst iv) (snd iv) acc) (combine idx values) l.

(** lines 56-64 *)
Definition sets_from_conds (cs : list (list bool)) : list (list nat) :=
  let sizes := map (fun row => length (filter (fun b => b) row)) cs in
  fold_left (fun sets us =>
      let idx := filter (fun i => (nth i sizes O =? us)%nat) (seq 0 (length cs)) in
      if (us =? 0)%nat then assign idx (repeat [] (length idx)) sets
      else let flat := flat_map (fun i => true_columns (nth i cs [])) idx in
           assign idx (chunks (length flat) us flat) sets)
    (unique_nat sizes) (repeat [] (length cs)).

Definition get_conformal_sets (val_scores : list Q) (test_scores : list (list Q)) (error : Q) : list (list nat) :=
  sets_from_conds (conds val_scores test_scores error).

(** base.py:19-35 *)
Definition set_is_in (y : nat) (s : list nat) : bool := existsb (Nat.eqb y) s.

(** ---- scores ---- *)
(** simple_prediction.py:10-12 *)
Definition simple_score (probs : list Q) (target : nat) : Q := 1 - nth target probs 0.

(** stable argsort of an array with a total preorder *)
Section Argsort.
Context {A : Type} (le : A -> A -> bool) (d : A).
Fixpoint arg_insert (l : list A) (i : nat) (is : list nat) : list nat :=
  match is with
  | [] => [i]
  | j :: r => if le (nth i l d) (nth j l d) then i :: j :: r else j :: arg_insert l i r
  end.
(** indices are inserted from the last one: an index goes before equal ones *)
Definition argsort (l : list A) : list nat := fold_right (arg_insert l) [] (seq 0 (length l)).
End Argsort.

Fixpoint cumsum_from (acc : Q) (l : list Q) : list Q :=
  match l with [] => [] | x :: r => (acc + x) :: cumsum_from (acc + x) r end.
Definition cumsum (l : list Q) : list Q := cumsum_from 0 l.

(** adaptive_prediction.py:11-22 *)
Definition adaptive_score (probs : list Q) (target : nat) : Q :=
  let perm := rev (argsort Qle_bool 0 probs) in
  let inv_perm := argsort Nat.leb O perm in
  nth (nth target inv_perm O) (cumsum (map (fun i => nth i probs 0) perm)) 0.

(** ---- base.py:71-92 and 95-132, for either score ---- *)
Section Classifier.
Variable score : list Q -> nat -> Q.
Definition n_classes (rows : list (list Q)) : nat := match rows with [] => O | r :: _ => length r end.
Definition class_scores (k : nat) (test_probs : list (list Q)) : list (list Q) :=
  map (fun p => map (score p) (seq 0 k)) test_probs.
Definition split_conformal_set (val_probs : list (list Q)) (val_targets : list nat) (test_probs : list (list Q)) (error : Q) : list (list nat) :=
  get_conformal_sets (zip_with score val_probs val_targets) (class_scores (n_classes val_probs) test_probs) error.
(** one entry of each list per fold; zip stops at the shortest *)
Definition cvplus_conformal_set (val_probs : list (list (list Q))) (val_targets : list (list nat)) (test_probs : list (list (list Q))) (error : Q) : list (list nat) :=
  let folds := combine (combine val_probs val_targets) test_probs in
  let k := n_classes (hd [] val_probs) in
  get_conformal_sets (flat_map (fun f => zip_with score (fst (fst f)) (snd (fst f))) folds)
                     (flat_map (fun f => class_scores k (snd f)) folds) error.
End Classifier.

(** ---- adaptive_conformal_classifier.py:30-126: the same update as for regression ---- *)
Definition class_update_error (s : list nat) (target : nat) (error target_error gamma : Q) (weights were_in : option (list Q)) : result Q :=
  update_error_from (set_is_in target s) error target_error gamma weights were_in.

(** ---- maxcovfixprec_binary_classfication.py ---- *)
(** jnp.linspace(a, b, n) *)
Definition linspace (a b : Q) (n : nat) : list Q :=
  map (fun i => a + inject_Z (Z.of_nat i) * ((b - a) / inject_Z (Z.of_nat (n - 1)))) (seq 0 n).

(** first index of a maximal element *)
Fixpoint argmax_from (best : Q) (besti i : nat) (l : list Q) : nat :=
  match l with
  | [] => besti
  | x :: r => if Qlt_bool best x then argmax_from x i (S i) r else argmax_from best besti (S i) r
  end.
Definition argmax (l : list Q) : nat := match l with [] => O | x :: r => argmax_from x 0 1 r end.

Definition half : Q := 1 # 2.
(** line 54 for one probability *)
Definition scale_pos (tau p : Q) : Q := Qmin ((1 + (tau - 1) * of_bool (Qlt_bool half p)) * p) 1.
(** line 62 *)
Definition scale_neg (tau p : Q) : Q := (1 + (tau - 1) * of_bool (Qlt_bool p half)) * p.

(** mean(b) * (mean(w * b) / mean(b) >= t); 0/0 is NaN, comparing as False *)
Definition objective (bs : list bool) (ws : list Q) (t : Q) : Q :=
  let prob_b := qmean (map of_bool bs) in
  let prec := qmean (zip_with (fun w b => w * of_bool b) ws bs) / prob_b in
  if Qeq_bool prob_b 0 then prob_b * 0 else prob_b * of_bool (Qle_bool t prec).

(** lines 53-59, 61-67; targets are 0 or 1 *)
Definition pos_objective (targets : list bool) (probs : list Q) (thr margin tau : Q) : Q :=
  objective (map (fun p => Qle_bool thr (scale_pos tau p)) probs) (map of_bool targets) (thr + margin).
Definition neg_objective (targets : list bool) (probs : list Q) (thr margin tau : Q) : Q :=
  objective (map (fun p => Qle_bool (scale_neg tau p) (1 - thr)) probs) (map (fun y => 1 - of_bool y) targets) (thr + margin).

Record patches := { tau_pos : Q; tau_neg : Q }.

(** lines 32-88; n_taus = 0 leaves nothing to maximise.  Arrays of different sizes are
    an error of broadcasting. *)
Definition calibrate (targets : list bool) (probs : list Q) (tp tn : Q) (n_taus : nat) (margin : Q) : result patches :=
  if Qle_bool tn half || Qle_bool tp half then Err ValueError
  else if negb (length targets =? length probs)%nat then Err TypeError
  else if (n_taus =? 0)%nat then Err ValueError
  else
    let taus_pos := linspace 1 (2 * tp) n_taus in
    let taus_neg := rev (linspace (2 * (1 - tn)) 1 n_taus) in
    let values_pos := map (pos_objective targets probs tp margin) taus_pos in
    let values_neg := map (neg_objective targets probs tn margin) taus_neg in
    Ok {| tau_pos := nth (argmax values_pos) taus_pos 0; tau_neg := nth (argmax values_neg) taus_neg 0 |}.

(** lines 90-100 for one probability *)
Definition apply_patch (ps : patches) (p : Q) : Q :=
  let p1 := if Qlt_bool half p then Qmin (tau_pos ps * p) 1 else p in
  if Qlt_bool p1 half then tau_neg ps * p1 else p1.
Definition apply_patches (ps : option patches) (probs : list Q) : list Q :=
  match ps with None => probs | Some ps => map (apply_patch ps) probs end.

(** lines 102-120; the value is None when it is 0/0 *)
Definition true_positive_precision (probs : list Q) (targets : list bool) (thr : Q) : option Q :=
  let b := map (fun p => Qle_bool thr p) probs in
  let prob_b := qmean (map of_bool b) in
  if Qeq_bool prob_b 0 then None else Some (qmean (zip_with (fun y b => of_bool y * of_bool b) targets b) / prob_b).
Definition true_negative_precision (probs : list Q) (targets : list bool) (thr : Q) : option Q :=
  let b := map (fun p => Qle_bool p (1 - thr)) probs in
  let prob_b := qmean (map of_bool b) in
  if Qeq_bool prob_b 0 then None else Some (qmean (zip_with (fun y b => (1 - of_bool y) * of_bool b) targets b) / prob_b).
Definition true_positive_coverage (probs : list Q) (thr : Q) : Q := qmean (map (fun p => of_bool (Qle_bool thr p)) probs).
Definition true_negative_coverage (probs : list Q) (thr : Q) : Q := qmean (map (fun p => of_bool (Qle_bool p thr)) probs).
