(** Model of fortuna/conformal/multivalid: base.py, iterative/base.py,
    iterative/multicalibrator.py, iterative/batch_mvp.py, one_shot/base.py,
    one_shot/multicalibrator.py, mixins/ and the classification variants.

    Arrays over data points are lists; [groups] and [scores] are lists of rows
    (one-dimensional scores become rows of length one, base.py:61-66).  A value of a
    point is a number (binary and plain calibrators, BatchMVP) or a row (top-label
    calibrator).  A loss is [None] when it is the mean of an empty array (NaN).
    Calibration data are assumed to be non-empty. *)
From Coq Require Import List Arith ZArith QArith Qround Qminmax Qabs Bool.
From Verif Require Import Lib QuantModel ConfRegModel ConfClassModel.
Import ListNotations.
Open Scope Q_scope.

(** base.py:37-39 *)
Definition get_buckets (n : nat) : list Q := linspace 0 1 n.
(** 0.5 / n_buckets *)
Definition half_width (n : nat) : Q := (1 # 2) / inject_Z (Z.of_nat n).

(** a set of data points chosen by a patch: bucket type (0: =, 1: >=, 2: <=), group,
    bucket centre and dimension *)
Record key := { k_tau : nat; k_g : nat; k_v : Q; k_c : nat }.
Inductive ptype := Additive | Multiplicative.

(** iterative/base.py:495-501 for one value *)
Definition in_bucket (n tau : nat) (v x : Q) : bool :=
  match tau with
  | O => Qlt_bool (Qabs (x - v)) (half_width n)
  | S O => Qle_bool v (x + half_width n)
  | _ => Qle_bool (x - half_width n) v
  end.
(** iterative/base.py:485-503, values of one dimension *)
Definition b1 (n : nat) (k : key) (row : list bool) (x : Q) : bool :=
  in_bucket n (k_tau k) (k_v k) x && nth (k_g k) row false.
(** iterative/classification/top_label_multicalibrator.py:94-114 *)
Definition b_top (n : nat) (k : key) (row : list bool) (xs : list Q) : bool :=
  in_bucket n (k_tau k) (k_v k) (nth (k_c k) xs 0) && nth (k_g k) row false && (argmax xs =? k_c k)%nat.

(** iterative/base.py:522-538 for a value that is taken *)
Definition patched (pt : ptype) (eta patch x : Q) : Q :=
  match pt with
  | Additive => qclip 0 1 (x + eta * patch)
  | Multiplicative => qclip 0 1 (x * (1 - eta * (1 - patch)))
  end.
Definition set1 (pt : ptype) (eta : Q) (c : nat) (patch x : Q) : Q := patched pt eta patch x.
Definition set_top (pt : ptype) (eta : Q) (c : nat) (patch : Q) (xs : list Q) : list Q :=
  set_nth c (patched pt eta patch (nth c xs 0)) xs.

Definition prob_of (bs : list bool) : Q := qmean (map of_bool bs).
(** jnp.mean(a * b) / jnp.mean(b) *)
Definition mean_on (xs : list Q) (bs : list bool) : Q := qmean (zip_with (fun x b => x * of_bool b) xs bs) / prob_of bs.

(** multicalibrator.py:54-105 (additive): difference of the mean score and the mean
    value on the set, 0 on a set of probability 0 *)
Definition mc_bias (scores xs : list Q) (bs : list bool) : Q :=
  if Qlt_bool 0 (prob_of bs) then mean_on scores bs - mean_on xs bs else 0.
(** multicalibrator.py:29-52 *)
Definition mc_error (scores xs : list Q) (bs : list bool) : Q :=
  prob_of bs * (mc_bias scores xs bs * mc_bias scores xs bs).
(** multicalibrator.py:107-145; [None]: a division by zero, giving an infinity or NaN *)
Definition mc_patch (pt : ptype) (scores xs : list Q) (bs : list bool) : result (option Q) :=
  match pt with
  | Additive => Ok (Some (mc_bias scores xs bs))
  | Multiplicative =>
      if Qeq_bool (prob_of bs) 0 || Qeq_bool (mean_on xs bs) 0 then Ok None
      else Ok (Some (mean_on scores bs / mean_on xs bs))
  end.

(** batch_mvp.py:210-238 *)
Definition mvp_prob (scores thresholds : list Q) (bs : list bool) : Q :=
  if Qlt_bool 0 (prob_of bs)
  then qmean (zip_with (fun st b => of_bool (Qle_bool (fst st) (snd st) && b)) (combine scores thresholds) bs) / prob_of bs
  else 0.
(** batch_mvp.py:178-208 *)
Definition mvp_prob_error (coverage : Q) (scores thresholds : list Q) (bs : list bool) : Q :=
  (coverage - mvp_prob scores thresholds bs) * (coverage - mvp_prob scores thresholds bs).
(** batch_mvp.py:151-176 *)
Definition mvp_error (coverage : Q) (scores xs : list Q) (bs : list bool) : Q :=
  prob_of bs * mvp_prob_error coverage scores xs bs.
(** batch_mvp.py:257: the grid of shifts *)
Definition mvp_shifts (n : nat) : list Q := removelast (map Qopp (rev (get_buckets n))) ++ get_buckets n.
Definition argmin_list (l : list Q) : list nat :=
  map fst (filter (fun p => Qeq_bool (snd p) (qmin_list l)) (combine (seq 0 (length l)) l)).
(** batch_mvp.py:240-276 *)
Definition mvp_patch (n : nat) (coverage : Q) (pt : ptype) (scores xs : list Q) (bs : list bool) : result (option Q) :=
  match pt with
  | Multiplicative => Err NotImplementedErr
  | Additive =>
      let shifts := mvp_shifts n in
      let errors := map (fun d => mvp_prob_error coverage scores (map (fun x => x + d) xs) bs) shifts in
      let idx := argmin_list errors in
      if existsb (fun i => (n <=? i)%nat) idx
      then Ok (Some (nth (hd O idx) shifts 0))
      else Ok (Some (nth (last idx O) shifts 0))
  end.

Definition omean (l : list Q) : option Q := match l with [] => None | _ => Some (qmean l) end.
(** mixins/multicalibrator.py:26-31 with values of one dimension: the sum, not the mean *)
Definition mc_loss1 (xs : list Q) (scores : list (list Q)) : option Q :=
  Some (qsum (zip_with (fun x s => (x - nth 0 s 0) * (x - nth 0 s 0)) xs scores)).
(** ... with rows *)
Definition mc_loss_top (xs : list (list Q)) (scores : list (list Q)) : option Q :=
  omean (zip_with (fun x s => (x - s) * (x - s)) (List.concat xs) (List.concat scores)).
(** mixins/batchmvp.py:29-40 *)
Definition pinball1 (coverage x s : Q) : Q :=
  (s - x) * coverage * of_bool (Qlt_bool x s) - (s - x) * (1 - coverage) * of_bool (Qle_bool s x).
Definition mvp_loss (coverage : Q) (xs : list Q) (scores : list (list Q)) : option Q :=
  omean (zip_with (fun x s => pinball1 coverage x (nth 0 s 0)) xs scores).

(** what a calibrator class defines; V: value of a point *)
Record method (V : Type) := {
  m_b : nat -> key -> list bool -> V -> bool;                     (** _get_b *)
  m_val : nat -> V -> Q;                                          (** values or values[:, c] *)
  m_set : ptype -> Q -> nat -> Q -> V -> V;                       (** _patch on a taken point *)
  m_error : list Q -> list Q -> list bool -> Q;                   (** _calibration_error *)
  m_patch : nat -> ptype -> list Q -> list Q -> list bool -> result (option Q); (** _get_patch *)
  m_loss : list V -> list (list Q) -> option Q                    (** _loss_fn *)
}.
Arguments m_b {V}. Arguments m_val {V}. Arguments m_set {V}. Arguments m_error {V}. Arguments m_patch {V}. Arguments m_loss {V}.
Definition multicalibrator : method Q :=
  {| m_b := b1; m_val := fun _ x => x; m_set := set1; m_error := mc_error; m_patch := fun _ => mc_patch; m_loss := mc_loss1 |}.
Definition top_label : method (list Q) :=
  {| m_b := b_top; m_val := fun c xs => nth c xs 0; m_set := set_top; m_error := mc_error; m_patch := fun _ => mc_patch; m_loss := mc_loss_top |}.
Definition batch_mvp (coverage : Q) : method Q :=
  {| m_b := b1; m_val := fun _ x => x; m_set := set1; m_error := mvp_error coverage; m_patch := fun n => mvp_patch n coverage; m_loss := mvp_loss coverage |}.

(** comparisons of floats that may be NaN *)
Definition oltb (a b : option Q) : bool := match a, b with Some x, Some y => Qlt_bool x y | _, _ => false end.
Definition oleb (a b : option Q) : bool := match a, b with Some x, Some y => Qle_bool x y | _, _ => false end.

(** keyword arguments of calibrate used by the loop *)
Record config := { n_buckets : nat; taus : list nat; n_groups : nat; n_dims : nat; min_prob : Q;
                   ptype_of : ptype; eta : Q; atol : Q; rtol : Q }.

Section Iterative.
Context {V : Type} (m : method V) (cfg : config).

(** iterative/base.py:185-203: sets examined, in row-major order *)
Definition keys : list key :=
  flat_map (fun tau => flat_map (fun g => flat_map (fun v =>
    map (fun c => {| k_tau := tau; k_g := g; k_v := v; k_c := c |}) (seq 0 (n_dims cfg)))
    (get_buckets (n_buckets cfg))) (seq 0 (n_groups cfg))) (taus cfg).
Definition members (k : key) (groups : list (list bool)) (values : list V) : list bool :=
  zip_with (m_b m (n_buckets cfg) k) groups values.
Definition column_of (c : nat) (scores : list (list Q)) : list Q := map (fun s => nth c s 0) scores.
Definition key_error (groups : list (list bool)) (scores : list (list Q)) (values : list V) (k : key) : Q :=
  m_error m (column_of (k_c k) scores) (map (m_val m (k_c k)) values) (members k groups values).
(** line 205 *)
Definition frequent (groups : list (list bool)) (values : list V) (k : key) : bool :=
  Qle_bool (min_prob cfg) (prob_of (members k groups values)).
(** lines 205-223 and 467-483: None when no set is frequent enough *)
Definition choose (groups : list (list bool)) (scores : list (list Q)) (values : list V) : option key :=
  if existsb (frequent groups values) keys
  then nth_error keys (argmax (map (fun k => key_error groups scores values k * of_bool (frequent groups values k)) keys))
  else None.
(** lines 225-237 *)
Definition patch_for (groups : list (list bool)) (scores : list (list Q)) (values : list V) (k : key) : result (option Q) :=
  m_patch m (n_buckets cfg) (ptype_of cfg) (column_of (k_c k) scores) (map (m_val m (k_c k)) values) (members k groups values).
(** lines 522-538, 346-363 *)
Definition apply_patch1 (k : key) (patch : Q) (row : list bool) (x : V) : V :=
  if m_b m (n_buckets cfg) k row x then m_set m (ptype_of cfg) (eta cfg) (k_c k) patch x else x.
Definition apply_one (groups : list (list bool)) (values : list V) (p : key * Q) : list V :=
  zip_with (apply_patch1 (fst p) (snd p)) groups values.
Definition replay (ps : list (key * Q)) (groups : list (list bool)) (values : list V) : list V :=
  fold_left (apply_one groups) ps values.

(** variables of the loop; losses newest first *)
Record lstate := { l_values : list V; l_val_values : list V; l_old : option Q; l_losses : list (option Q);
                   l_patches : list (key * Q); l_converged : bool }.
Inductive outcome := Continue (s : lstate) | Break (s : lstate) | Raise (e : error) | NonFinite (s : lstate).

(** lines 184-287, one round *)
Definition round (groups vgroups : list (list bool)) (scores vscores : list (list Q)) (s : lstate) : outcome :=
  match choose groups scores (l_values s) with
  | None => Break s
  | Some k =>
    match patch_for groups scores (l_values s) k with
    | Err e => Raise e
    | Ok None => NonFinite s
    | Ok (Some p) =>
        let values := apply_one groups (l_values s) (k, p) in
        let val_bt := members k vgroups (l_val_values s) in
        let val_values := apply_one vgroups (l_val_values s) (k, p) in
        let loss := m_loss m values scores in
        let val_loss := m_loss m val_values vscores in
        let prev := hd None (l_losses s) in
        let s' := {| l_values := values; l_val_values := val_values; l_old := l_old s; l_losses := val_loss :: l_losses s;
                     l_patches := l_patches s; l_converged := l_converged s |} in
        let conv := {| l_values := values; l_val_values := val_values; l_old := l_old s; l_losses := val_loss :: l_losses s;
                       l_patches := l_patches s; l_converged := true |} in
        if oltb (l_old s) loss then Break s'
        else if oleb val_loss (Some (atol cfg)) then Break conv
        else if oltb prev val_loss then Break s'
        else
          let go := Continue {| l_values := values; l_val_values := val_values; l_old := loss; l_losses := val_loss :: l_losses s;
                                l_patches := l_patches s ++ [(k, p)]; l_converged := l_converged s |} in
          if existsb (fun b => b) val_bt then
            match prev, val_loss with
            | Some a, Some b => if Qeq_bool a 0 then Raise ZeroDivisionError
                                else if Qle_bool ((a - b) / a) (rtol cfg) then Break conv else go
            | _, _ => go
            end
          else go
    end
  end.
Fixpoint rounds (n : nat) (groups vgroups : list (list bool)) (scores vscores : list (list Q)) (s : lstate) : outcome :=
  match n with
  | O => Break s
  | S n' => match round groups vgroups scores vscores s with
            | Continue s' => rounds n' groups vgroups scores vscores s'
            | o => o
            end
  end.
(** lines 179-182 *)
Definition start (groups vgroups : list (list bool)) (scores vscores : list (list Q)) (values val_values : list V) : lstate :=
  {| l_values := values; l_val_values := val_values; l_old := m_loss m values scores; l_losses := [m_loss m val_values vscores];
     l_patches := []; l_converged := false |}.
Definition run (n : nat) (groups vgroups : list (list bool)) (scores vscores : list (list Q)) (values val_values : list V) : outcome :=
  rounds n groups vgroups scores vscores (start groups vgroups scores vscores values val_values).

(** lines 169-177: split of the calibration data; [perm] is the random permutation *)
Definition pick {A} (d : A) (perm : list nat) (l : list A) : list A := map (fun i => nth i l d) perm.
Definition calib_size (split : Q) (size : nat) : nat := Z.to_nat (Qceiling (split * inject_Z (Z.of_nat size))).

(** lines 308-364 after validation *)
Definition apply_patches (ps : list (key * Q)) (groups : list (list bool)) (values : list V) : list V := replay ps groups values.
End Iterative.
Arguments lstate : clear implicits.
Arguments outcome : clear implicits.

(** lines 289-293 *)
Record status := { st_n_rounds : nat; st_losses : list (option Q); st_converged : bool }.
Definition status_of {V} (s : lstate V) : status :=
  {| st_n_rounds := length (l_patches s); st_losses := rev (l_losses s); st_converged := l_converged s |}.

(** lines 108-141: argument checks *)
Record call := { c_n_rounds : Z; has_groups : bool; has_values : bool; has_test_groups : bool; has_test_values : bool;
                 c_eta : Q; c_split : Q; c_min_prob : option Q; c_ptype : option ptype }.
Definition check_call (a : call) : result unit :=
  if (c_n_rounds a <? 1)%Z then Err ValueError
  else if has_test_values a && negb (has_values a) then Err ValueError
  else if has_values a && has_test_groups a && negb (has_test_values a) then Err ValueError
  else if has_test_groups a && negb (has_groups a) then Err ValueError
  else if has_groups a && has_test_values a && negb (has_test_groups a) then Err ValueError
  else if Qle_bool (c_eta a) 0 || Qlt_bool 1 (c_eta a) then Err ValueError
  else if Qle_bool (c_split a) 0 || Qlt_bool 1 (c_split a) then Err ValueError
  else if match c_min_prob a with None => false | Some p => Qlt_bool p 0 || Qlt_bool 1 p end then Err ValueError
  else match c_ptype a with None => Err ValueError | Some _ => Ok tt end.
(** base.py:68-74 *)
Definition init_min_prob (p : option Q) (nb nd : nat) : Q :=
  match p with None => 1 / inject_Z (Z.of_nat (nb * nd)) | Some p => p end.
(** iterative/base.py:577-593; strings are tags: 0 "=", 1 ">=", 2 "<=", other: unknown *)
Definition check_bucket_types (bts : list nat) : result (list nat) :=
  if existsb (fun b => (2 <? b)%nat) bts then Err ValueError
  else Ok (filter (fun t => existsb (Nat.eqb t) bts) [0; 1; 2]%nat).

(** iterative/base.py:366-429 for one-dimensional scores: one error per group; None is 0/0 *)
Definition calibration_error {V} (m : method V) (n : nat) (groups : list (list bool)) (scores : list (list Q)) (values : list V) (g c : nat) : option Q :=
  let size := prob_of (map (fun row => nth g row false) groups) in
  let errs := map (fun v => m_error m (column_of c scores) (map (m_val m c) values)
                    (zip_with (m_b m n {| k_tau := 0; k_g := g; k_v := v; k_c := c |}) groups values)) (get_buckets n) in
  if Qeq_bool size 0 then None else Some (qsum errs / size).

(** ---- one-shot calibration ---- *)
(** one_shot/multicalibrator.py:19-26 with one_shot/base.py:123-130 *)
Definition near (n : nat) (v x : Q) : bool := Qlt_bool (Qabs (x - v)) (half_width n).
Definition one_shot_patch (n : nat) (min_prob_b : Q) (scores values : list Q) (v : Q) : Q :=
  let bs := map (near n v) values in
  if Qlt_bool min_prob_b (prob_of bs) then mean_on scores bs else v.
Definition one_shot_patches (n : nat) (min_prob_b : Q) (scores values : list Q) : list Q :=
  map (one_shot_patch n min_prob_b scores values) (get_buckets n).
(** jnp.unique on values *)
Fixpoint insert_q (x : Q) (l : list Q) : list Q :=
  match l with
  | [] => [x]
  | y :: r => if Qlt_bool x y then x :: l else if Qeq_bool x y then l else y :: insert_q x r
  end.
Definition unique_q (l : list Q) : list Q := fold_right insert_q [] l.
(** jnp.argmin: first index of a minimal element *)
Definition argmin (l : list Q) : nat := argmax (map Qopp l).
(** one_shot/base.py:99-147, values of one dimension *)
Definition one_shot_index (n : nat) (v : Q) : nat := argmin (map (fun b => Qabs (b - v)) (get_buckets n)).
Definition one_shot_apply (n : nat) (patches : list Q) (values : list Q) : list Q :=
  let us := unique_q values in
  fold_left (fun acc v => zip_with (fun x y => if near n v x then nth (one_shot_index n v) patches 0 else y) values acc) us values.
(** one_shot/base.py:29-97 *)
Definition one_shot_calibrate (n : nat) (min_prob_b : option Q) (scores values test_values : list Q) : list Q :=
  one_shot_apply n (one_shot_patches n (init_min_prob min_prob_b n 1) scores values) test_values.

(** iterative/regression/batch_mvp.py:26-69 *)
Definition mvp_conformal_set (class_scores : list (list Q)) (thresholds : list Q) : result (list (list nat)) :=
  if negb (length class_scores =? length thresholds)%nat then Err ValueError
  else Ok (sets_from_conds (zip_with (fun row t => map (fun s => Qle_bool s t) row) class_scores thresholds)).

(** mixins/classification/top_label_multicalibrator.py:31-36 *)
Definition top_label_scores (n_classes : nat) (targets : list nat) : list (list Q) :=
  map (fun y => map (fun i => of_bool (y =? i)%nat) (seq 0 n_classes)) targets.
(** mixins/classification/binary_multicalibrator.py:34-41: both labels must occur *)
Definition check_binary_targets (targets : list Z) : result unit :=
  if forallb (fun y => (y =? 0)%Z || (y =? 1)%Z) targets && existsb (fun y => (y =? 0)%Z) targets && existsb (fun y => (y =? 1)%Z) targets
  then Ok tt else Err ValueError.
