(** Model of the iterative multivalid methods as objects:
    fortuna/conformal/multivalid/base.py, iterative/base.py, iterative/multicalibrator.py,
    iterative/batch_mvp.py, iterative/classification/binary_multicalibrator.py,
    iterative/classification/top_label_multicalibrator.py and the mixins they inherit from.
    The loop is [run] of MultiModel.v, the checks of scores and values are those of
    OneShotModel.v.

    Arrays hold numbers; NaN does not occur.  Every array has at least one point, rows of a
    matrix have one common, positive width, groups of test data have at least one column, and
    [n_buckets] is positive.  Thresholds of BatchMVP have one axis.  The arithmetic is exact;
    a run in which a patch is infinite or NaN is not modelled further and ends with RuntimeError,
    which the code never raises.  An index beyond an axis is clamped on retrieval, which is what
    jax does. *)
From Coq Require Import List Arith ZArith QArith Qabs Qminmax Bool.
From Verif Require Import Lib QuantModel ConfRegModel ConfClassModel MultiModel OneShotModel.
Import ListNotations.
Open Scope Q_scope.

(** Multicalibrator, BinaryClassificationMulticalibrator and TopLabelMulticalibrator; or
    BatchMVPConformalMethod *)
Inductive family := Mc (k : kind) | Mvp.
Definition kind_of (f : family) : kind := match f with Mc k => k | Mvp => Plain end.

(** groups: one row per point; whether the array has two axes and whether its dtype is bool *)
Record membership := { g_rows : list (list bool); g_width : nat; g_two_axes : bool; g_bool : bool }.

(** iterative/base.py:31-35, base.py:21-23, batch_mvp.py:33 *)
Record object := { i_patches : list (key * Q); i_n : option nat; i_types : option (list nat); i_eta : option Q; i_ptype : option ptype; i_coverage : option Q }.
Definition blank : object := {| i_patches := []; i_n := None; i_types := None; i_eta := None; i_ptype := None; i_coverage := None |}.

(** what the seed of the object determines: the permutation of [size] points
    (iterative/base.py:172-174) and standard normal numbers
    (binary_multicalibrator.py:99-101, top_label_multicalibrator.py:125-127) *)
Record random := { r_perm : nat -> list nat; r_z1 : nat -> nat -> Q; r_z2 : nat -> nat -> nat -> nat -> Q }.

(** arguments of calibrate; bucket types are tags: 0 "=", 1 ">=", 2 "<=", other: unknown *)
Record args := { a_targets : typed; a_groups : option membership; a_values : option array; a_test_groups : option membership; a_test_values : option array;
                 a_atol : Q; a_rtol : Q; a_min_prob : option Q; a_n : nat; a_rounds : Z; a_eta : Q; a_split : Q; a_types : list nat; a_ptype : option ptype;
                 a_coverage : Q }.
Definition given {A} (x : option A) : bool := match x with Some _ => true | None => false end.
(** iterative/base.py:108-141 *)
Definition call_of (a : args) : call :=
  {| c_n_rounds := a_rounds a; has_groups := given (a_groups a); has_values := given (a_values a); has_test_groups := given (a_test_groups a);
     has_test_values := given (a_test_values a); c_eta := a_eta a; c_split := a_split a; c_min_prob := a_min_prob a; c_ptype := a_ptype a |}.

(** iterative/base.py:557-565 *)
Definition bad_groups (g : membership) : bool := negb (g_two_axes g) || negb (g_bool g).
Definition check_groups (g : membership) (test : option membership) : result unit :=
  if bad_groups g then Err ValueError
  else match test with None => Ok tt | Some t => if bad_groups t then Err ValueError else Ok tt end.
(** iterative/base.py:567-571 *)
Definition init_groups (g : option membership) (size : nat) : membership :=
  match g with Some g => g | None => {| g_rows := repeat [true] size; g_width := 1; g_two_axes := true; g_bool := true |} end.
(** batch_mvp.py:278-283: neither axes nor test values are looked at *)
Definition check_vals (f : family) (values : array) (test : option array) : result unit :=
  match f with
  | Mc k => check_values k values test
  | Mvp => if existsb outside (entries values) then Err ValueError else Ok tt
  end.

(** what calibrate makes of an object before it looks at the data: batch_mvp.py:107-108 *)
Definition with_coverage (f : family) (c : Q) (o : object) : object :=
  match f with
  | Mc _ => o
  | Mvp => {| i_patches := i_patches o; i_n := i_n o; i_types := i_types o; i_eta := i_eta o; i_ptype := i_ptype o; i_coverage := Some c |}
  end.
(** iterative/base.py:158 *)
Definition with_n (n : nat) (o : object) : object :=
  {| i_patches := i_patches o; i_n := Some n; i_types := i_types o; i_eta := i_eta o; i_ptype := i_ptype o; i_coverage := i_coverage o |}.
(** iterative/base.py:163-167 *)
Definition with_args (a : args) (o : object) : object :=
  {| i_patches := i_patches o; i_n := i_n o; i_types := Some (a_types a); i_eta := Some (a_eta a); i_ptype := a_ptype a; i_coverage := i_coverage o |}.
Definition with_patches (ps : list (key * Q)) (o : object) : object :=
  {| i_patches := ps; i_n := i_n o; i_types := i_types o; i_eta := i_eta o; i_ptype := i_ptype o; i_coverage := i_coverage o |}.

(** the patches recorded when the loop ends, also by an exception: iterative/base.py:181-287 *)
Fixpoint so_far {V} (m : method V) (cfg : config) (n : nat) (groups vgroups : list (list bool)) (scores vscores : list (list Q)) (s : lstate V) : list (key * Q) :=
  match n with
  | O => l_patches s
  | S n' => match round m cfg groups vgroups scores vscores s with
            | Continue s' => so_far m cfg n' groups vgroups scores vscores s'
            | _ => l_patches s
            end
  end.

Section Object.
Variable rnd : random.

(** iterative/base.py:443-450, binary_multicalibrator.py:92-103,
    top_label_multicalibrator.py:116-133 *)
Definition init_row (m size i : nat) : list Q :=
  let v := map (fun j => Qabs (1 / inject_Z (Z.of_nat m) + (1 # 100) * r_z2 rnd size m i j)) (seq 0 m) in
  let w := map (fun x => x - 2 * Qmax 0 (x - 1)) v in
  map (fun x => x / qsum w) w.
Definition init_values (f : family) (values : option array) (size : nat) : array :=
  match values with
  | Some v => v
  | None =>
      match f with
      | Mc Binary => Vec (map (fun i => (1 # 2) + (1 # 100) * r_z1 rnd size i) (seq 0 size))
      | Mc (TopLabel m) => Mat (map (init_row m size) (seq 0 size))
      | _ => Vec (repeat 0 size)
      end
  end.

Definition gather {A} (d : A) (idx : list nat) (l : list A) : list A := map (fun i => clamped d i l) idx.
(** iterative/base.py:169-293 *)
Definition fit {V} (m : method V) (cfg : config) (d : V) (a : args) (groups : list (list bool)) (scores : list (list Q)) (values : list V)
  : result status * list (key * Q) :=
  let size := length scores in
  let perm := r_perm rnd size in
  let h := firstn (calib_size (a_split a) size) perm in
  let t := skipn (calib_size (a_split a) size) perm in
  let cg := gather [] h groups in let vg := gather [] t groups in
  let cs := gather [] h scores in let vs := gather [] t scores in
  let cv := gather d h values in let vv := gather d t values in
  (match run m cfg (Z.to_nat (a_rounds a)) cg vg cs vs cv vv with
   | Break s => Ok (status_of s)
   | Raise e => Err e
   | Continue _ | NonFinite _ => Err RuntimeError
   end,
   so_far m cfg (Z.to_nat (a_rounds a)) cg vg cs vs (start m cg vg cs vs cv vv)).

(** what the loop is given: iterative/base.py:145-167 *)
Definition config_of (a : args) (taus : list nat) (n_groups n_dims : nat) (pt : ptype) : config :=
  {| n_buckets := a_n a; taus := taus; n_groups := n_groups; n_dims := n_dims; min_prob := init_min_prob (a_min_prob a) (a_n a) n_dims;
     ptype_of := pt; eta := a_eta a; atol := a_atol a; rtol := a_rtol a |}.

(** ---- apply_patches: iterative/base.py:308-364 ---- *)
Definition clamp_key (width : nat) (p : key * Q) : key * Q :=
  ({| k_tau := k_tau (fst p); k_g := Nat.min (k_g (fst p)) (width - 1); k_v := k_v (fst p); k_c := k_c (fst p) |}, snd p).
(** groups of a single row are stretched; a mask longer than the values is an error *)
Definition meet_rows {A} (groups : list (list bool)) (values : list A) : result (list (list bool)) :=
  if (length groups =? length values)%nat then Ok groups
  else if (length groups =? 1)%nat then Ok (repeat (hd [] groups) (length values))
  else if (length values =? 1)%nat then Err IndexError
  else Err TypeError.
Definition object_config (n : nat) (pt : ptype) (e : Q) : config :=
  {| n_buckets := n; taus := []; n_groups := 0; n_dims := 0; min_prob := 0; ptype_of := pt; eta := e; atol := 0; rtol := 0 |}.
Definition iapply (f : family) (o : object) (groups : option membership) (values : option array) : result (option array) :=
  match groups, values with
  | None, None => Err ValueError
  | _, _ =>
    match i_patches o with
    | [] => Ok values
    | ps =>
      let vs := init_values f values (match groups with Some g => length (g_rows g) | None => 0%nat end) in
      bind (check_vals f vs None) (fun _ =>
      let g := init_groups groups (match vs with Vec l => length l | Mat rows => length rows end) in
      bind (check_groups g None) (fun _ =>
      match i_n o, i_ptype o, i_eta o with
      | Some n, Some pt, Some e =>
          let cfg := object_config n pt e in
          match f, vs with
          | Mc (TopLabel _), Mat rows =>
              bind (meet_rows (g_rows g) rows) (fun gs => Ok (Some (Mat (MultiModel.apply_patches top_label cfg (map (clamp_key (g_width g)) ps) gs rows))))
          | Mc (TopLabel _), Vec _ => Err TypeError
          | Mc _, Vec l =>
              bind (meet_rows (g_rows g) l) (fun gs => Ok (Some (Vec (MultiModel.apply_patches multicalibrator cfg (map (clamp_key (g_width g)) ps) gs l))))
          | Mvp, Vec l =>
              bind (meet_rows (g_rows g) l) (fun gs => Ok (Some (Vec (MultiModel.apply_patches (batch_mvp 0) cfg (map (clamp_key (g_width g)) ps) gs l))))
          | _, _ => Err TypeError
          end
      | _, _, _ => Err TypeError
      end))
    end
  end.

(** ---- calibrate: iterative/base.py:108-156; the scores, the groups and the values ---- *)
Definition prepare (f : family) (a : args) : result (list (list Q) * membership * array) :=
  bind (get_scores (kind_of f) (a_targets a)) (fun scores =>
  bind (check_call (call_of a)) (fun _ =>
  bind (check_scores (kind_of f) (a_targets a)) (fun _ =>
  let g := init_groups (a_groups a) (length scores) in
  bind (check_groups g (a_test_groups a)) (fun _ =>
  let vs := init_values f (a_values a) (length (g_rows g)) in
  bind (check_vals f vs (a_test_values a)) (fun _ => Ok (scores, g, vs)))))).
(** the loop of each class; probabilities of another width than the scores cannot be subtracted
    from them (stretching of width one is left out) *)
Definition fit_object (f : family) (a : args) (taus : list nat) (pt : ptype) (scores : list (list Q)) (g : membership) (vs : array)
  : option (result status * list (key * Q)) :=
  match f, vs with
  | Mc (TopLabel m), Mat rows =>
      if (length (hd [] rows) =? m)%nat then Some (fit top_label (config_of a taus (g_width g) m pt) [] a (g_rows g) scores rows) else None
  | Mc (TopLabel _), Vec _ => None
  | Mc _, Vec l => Some (fit multicalibrator (config_of a taus (g_width g) 1 pt) 0 a (g_rows g) scores l)
  | Mvp, Vec l => Some (fit (batch_mvp (a_coverage a)) (config_of a taus (g_width g) 1 pt) 0 a (g_rows g) scores l)
  | _, _ => None
  end.
(** iterative/base.py:37-306, batch_mvp.py:35-125, binary_multicalibrator.py:21-55,
    top_label_multicalibrator.py:35-69: the value returned and the object afterwards.  The value
    is the status and, when test data are given, what apply_patches returns for them. *)
Definition icalibrate (f : family) (o : object) (a : args) : result (status * option (option array)) * object :=
  if match f with Mvp => outside (a_coverage a) | _ => false end then (Err ValueError, o)
  else
  let o1 := with_coverage f (a_coverage a) o in
  match prepare f a with
  | Err e => (Err e, o1)
  | Ok (scores, g, vs) =>
      let o2 := with_n (a_n a) o1 in
      match check_bucket_types (a_types a), a_ptype a with
      | Ok taus, Some pt =>
          let o3 := with_args a o2 in
          match fit_object f a taus pt scores g vs with
          | None => (Err TypeError, o3)
          | Some (r, ps) =>
              let o4 := with_patches ps o3 in
              match r with
              | Err e => (Err e, o4)
              | Ok st =>
                  if given (a_test_groups a) || given (a_test_values a)
                  then (match iapply f o4 (a_test_groups a) (a_test_values a) with Ok y => Ok (st, Some y) | Err e => Err e end, o4)
                  else (Ok (st, None), o4)
              end
          end
      | Err e, _ => (Err e, o2)
      | _, None => (Err ValueError, o2)
      end
  end.

(** ---- calibration_error: iterative/base.py:366-429, batch_mvp.py:134-149,
    binary_multicalibrator.py:64-74, top_label_multicalibrator.py:78-92: one row per group and one
    entry per dimension; None is 0/0.  [None < 0] is a TypeError in BatchMVP's check, and so is
    [None - prob] without a coverage.  Arrays of different lengths are a TypeError (stretching of
    length one is left out). ---- *)
Definition error_table {V} (m : method V) (n : nat) (groups : membership) (dims : nat) (scores : list (list Q)) (values : list V) : list (list (option Q)) :=
  map (fun g => map (calibration_error m n (g_rows groups) scores values g) (seq 0 dims)) (seq 0 (g_width groups)).
Definition ierror (f : family) (o : object) (targets : typed) (groups : option membership) (values : option array) (n : nat) : result (list (list (option Q))) :=
  bind (get_scores (kind_of f) targets) (fun scores =>
  bind (check_scores (kind_of f) targets) (fun _ =>
  bind (match groups with None => Ok tt | Some g => check_groups g None end) (fun _ =>
  bind (match f, values with Mvp, None => Err TypeError | _, None => Ok tt | _, Some v => check_vals f v None end) (fun _ =>
  let g := init_groups groups (length scores) in
  let same k := ((length (g_rows g) =? length scores)%nat && (k =? length scores)%nat)%bool in
  match f, init_values f values (length scores) with
  | Mc (TopLabel m), Mat rows => if same (length rows) then Ok (error_table top_label n g m scores rows) else Err TypeError
  | Mc (TopLabel _), Vec _ => Err TypeError
  | Mc _, Vec l => if same (length l) then Ok (error_table multicalibrator n g 1 scores l) else Err TypeError
  | Mvp, Vec l => match i_coverage o with
                  | None => Err TypeError
                  | Some c => if same (length l) then Ok (error_table (batch_mvp c) n g 1 scores l) else Err TypeError
                  end
  | _, _ => Err TypeError
  end)))).
End Object.
