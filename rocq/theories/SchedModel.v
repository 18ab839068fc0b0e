(** Model of fortuna/utils/optimizer.py, fortuna/utils/training.py and
    fortuna/utils/random.py.

    Learning rates are rationals; gradients for clipping by norm are reals (square
    root).  The optax functions linear_schedule and join_schedules are modelled after
    their documentation. *)
From Coq Require Import List ZArith QArith Qminmax Bool String Ascii Reals.
From Verif Require Import Lib NestedModel FreezeModel.
Import ListNotations.
Open Scope list_scope.

(** ---- optimizer.py:16-61 ---- *)
(** sorted(d.items()): the keys of a dictionary are distinct *)
Fixpoint insert_threshold (x : Z * Q) (l : list (Z * Q)) : list (Z * Q) :=
  match l with
  | [] => [x]
  | y :: r => if (fst x <=? fst y)%Z then x :: y :: r else y :: insert_threshold x r
  end.
Definition sort_thresholds (l : list (Z * Q)) : list (Z * Q) := fold_right insert_threshold [] l.

(** max(0, sign(threshold - count)), line 57 *)
Definition indicator (threshold count : Z) : Q := Qmax 0 (inject_Z (Z.sgn (threshold - count))).

(** lines 56-58 *)
Definition stepped_value (init : Q) (bs : list (Z * Q)) (count : Z) : Q :=
  fold_left (fun v ts => v * indicator (fst ts) count + (1 - indicator (fst ts) count) * snd ts * init)%Q
            (sort_thresholds bs) init.

(** lines 46-61 *)
Definition stepped_schedule (init : Q) (bs : option (list (Z * Q))) : result (Z -> Q) :=
  match bs with
  | None => Ok (fun _ => init)
  | Some l => if forallb (fun ts => Qle_bool 0 (snd ts)) l then Ok (stepped_value init l) else Err ValueError
  end.

(** ---- optimizer.py:64-105 ---- *)
(** optax.linear_schedule: constant when transition_steps <= 0 *)
Definition linear_schedule (init final : Q) (transition_steps : Z) (count : Z) : Q :=
  if (transition_steps <=? 0)%Z then init
  else let c := Z.max 0 (Z.min count transition_steps) in
       ((init - final) * (1 - inject_Z c / inject_Z transition_steps) + final)%Q.

(** optax.join_schedules of two schedules *)
Definition join2 (s1 s2 : Z -> Q) (boundary : Z) (step : Z) : Q :=
  if (step <? boundary)%Z then s1 step else s2 (step - boundary)%Z.

(** lines 92-93 *)
Definition num_train_steps (num_inputs batch_size epochs : Z) : Z := (num_inputs / batch_size * epochs)%Z.

Definition linear_scheduler_with_warmup (lr : Q) (num_inputs batch_size epochs warmup : Z) : Z -> Q :=
  join2 (linear_schedule 0 lr warmup)
        (linear_schedule lr 0 (num_train_steps num_inputs batch_size epochs - warmup)) warmup.

(** ---- optimizer.py:108-122 ---- *)
Definition lower_ascii (a : ascii) : ascii :=
  let n := nat_of_ascii a in if (Nat.leb 65 n && Nat.leb n 90)%bool then ascii_of_nat (n + 32) else a.
Fixpoint lower (s : string) : string :=
  match s with EmptyString => EmptyString | String a r => String (lower_ascii a) (lower r) end.
(** [sub in s] *)
Definition str_in (sub s : string) : bool := match String.index 0 sub s with Some _ => true | None => false end.
(** p[-2:] *)
Definition last_two (p : path) : path := skipn (List.length p - 2) p.
Definition layer_norm_candidates : list string := ["layernorm"; "layer_norm"; "ln"]%string.
Definition layer_norm_like (p : path) : bool :=
  existsb (fun c => str_in c (lower (String.concat "" p))) layer_norm_candidates.
Definition path_eqb (p q : path) : bool := if list_eq_dec string_dec p q then true else false.
(** lines 118-121 *)
Definition decays (paths : list path) (p : path) : bool :=
  negb (String.eqb (last p EmptyString) "bias")
  && negb (existsb (path_eqb (last_two p)) (map last_two (filter layer_norm_like paths))).
(** unflatten_dict of the mask *)
Definition decay_mask {V} (params : tree V) : result (tree bool) :=
  let paths := map fst (leaves params) in
  set_paths true (Dict []) (map (fun p => (p, Leaf (decays paths p))) paths).

(** ---- training.py:8-20; a gradient is the list of its leaf arrays ---- *)
Definition clip_value (c z : Q) : Q := Qmin (Qmax z (- c)) c.
Definition clip_by_value (grad : list (list Q)) (c : Q) : list (list Q) := map (map (clip_value c)) grad.

Definition sum_squares (g : list (list R)) : R :=
  fold_left (fun x y => x + fold_right Rplus 0 (map (fun z => z ^ 2) y))%R g 0%R.
Definition clip_by_norm (g : list (list R)) (max_norm : R) : list (list R) :=
  let mult := Rmin 1 (max_norm / (/ 10 ^ 7 + sqrt (sum_squares g)))%R in
  map (map (fun z => mult * z)%R) g.

(** ---- random.py:26-49 ---- *)
(** Keys as terms: distinct derivations are distinct keys (ideal generator).
    [Child k i] is random.split(k)[i]. *)
Inductive key := Seed (n : nat) | Child (k : key) (i : nat).
(** get(): new state and returned key *)
Definition rng_get (state : key) : key * key := let k := Child state 0 in (k, k).
Fixpoint rng_gets (n : nat) (state : key) : list key :=
  match n with O => [] | S m => let '(s, k) := rng_get state in k :: rng_gets m s end.

(** predictive/base.py:880-897: keys passed to aleatoric_variance and
    epistemic_variance by one call of variance, and the generator state after it *)
Definition variance_keys (state : key) : key * (key * key) :=
  let '(s, rng) := rng_get state in
  let aleatoric := Child rng 1 in
  let rng1 := Child rng 0 in
  let epistemic := Child rng1 1 in
  (s, (aleatoric, epistemic)).
