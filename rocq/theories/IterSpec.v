(** Vocabulary for the statements about the iterative multivalid methods as objects. *)
From Coq Require Import List Arith ZArith QArith Qabs Qround Bool.
From Verif Require Import Lib QuantModel ConfRegModel ConfClassModel MultiModel MultiSpec MultiSpec3 OneShotModel OneShotSpec IterModel.
Import ListNotations.
Open Scope Q_scope.

Definition proper (g : membership) : Prop := g_two_axes g = true /\ g_bool g = true.
(** the scalar arguments, and which arrays are given together *)
Definition call_fine (a : args) : Prop :=
  (1 <= a_rounds a)%Z /\ 0 < a_eta a <= 1 /\ 0 < a_split a <= 1 /\ (forall p, a_min_prob a = Some p -> in_unit p) /\ a_ptype a <> None /\
  (a_test_values a <> None -> a_values a <> None) /\ (a_test_groups a <> None -> a_groups a <> None) /\
  (a_values a <> None -> a_test_groups a <> None -> a_test_values a <> None) /\ (a_groups a <> None -> a_test_values a <> None -> a_test_groups a <> None).
Definition values_fine (f : family) (v : array) : Prop := axes v = needed (kind_of f) /\ all_entries in_unit v.
Definition fine (f : family) (a : args) : Prop :=
  (f = Mvp -> in_unit (a_coverage a)) /\ call_fine a /\ good_targets (kind_of f) (a_targets a) /\
  (forall g, a_groups a = Some g \/ a_test_groups a = Some g -> proper g) /\
  (forall v, a_values a = Some v -> values_fine f v) /\
  (forall v, a_test_values a = Some v -> f <> Mvp -> all_entries in_unit v /\ (f <> Mc Plain -> axes v = needed (kind_of f))).
(** what the model leaves out *)
Definition in_scope (f : family) (a : args) : Prop :=
  (0 < points (t_array (a_targets a)))%nat /\ (forall g, a_groups a = Some g -> (0 < length (g_rows g))%nat) /\
  (f = Mvp -> forall v, a_values a = Some v \/ a_test_values a = Some v -> axes v = 1%nat).
(** normal numbers of ordinary size, and no row of initial probabilities is zero *)
Definition tame (rnd : random) : Prop :=
  (forall s i, Qabs (r_z1 rnd s i) <= 50) /\ (forall s m i j, Qabs (r_z2 rnd s m i j) <= 50) /\
  (forall s m i, (0 < m)%nat -> exists j, (j < m)%nat /\ ~ r_z2 rnd s m i j * inject_Z (Z.of_nat m) == - (100)).

Definition known_types (a : args) : Prop := forall t, In t (a_types a) -> (t <= 2)%nat.
(** probabilities have one column per class *)
Definition right_width (f : family) (a : args) : Prop :=
  forall m rows, f = Mc (TopLabel m) -> a_values a = Some (Mat rows) -> length (hd [] rows) = m.
(** two objects that return the same for the same data *)
Definition alike (rnd : random) (f : family) (o o' : object) : Prop := forall g v, iapply rnd f o g v = iapply rnd f o' g v.
Definition without_test (a : args) : args :=
  {| a_targets := a_targets a; a_groups := a_groups a; a_values := a_values a; a_test_groups := None; a_test_values := None; a_atol := a_atol a; a_rtol := a_rtol a;
     a_min_prob := a_min_prob a; a_n := a_n a; a_rounds := a_rounds a; a_eta := a_eta a; a_split := a_split a; a_types := a_types a; a_ptype := a_ptype a; a_coverage := a_coverage a |}.
(** objects obtained by calls of calibrate *)
Inductive reached (rnd : random) (f : family) : object -> Prop :=
| new : reached rnd f blank
| again o a : reached rnd f o -> (0 < a_n a)%nat -> reached rnd f (snd (icalibrate rnd f o a)).

(** every array has one entry (or row) per target *)
Definition aligned (f : family) (a : args) : Prop :=
  (forall g, a_groups a = Some g -> length (g_rows g) = points (t_array (a_targets a))) /\
  (forall v, a_values a = Some v -> points v = points (t_array (a_targets a)) /\ of_width (kind_of f) v).
(** the loss a family is fitted by, summed over all points *)
Definition total_loss (f : family) (a : args) (l : list Q) (ss : list (list Q)) (out : array) : Q :=
  match f, out with
  | Mvp, Vec xs => pinball_error (a_coverage a) xs l
  | _, _ => squared_error out ss
  end.
(** reflection at one *)
Definition folded (x : Q) (y : Q) : Prop := (x <= 1 -> y == x) /\ (1 < x -> y == 2 - x).
(** what replaying patches does to one value: a selected value moves to the clipped target, another stays;
    a group beyond the last column of [row] counts as the last one *)
Definition in_columns (w : nat) (k : key) : key := {| k_tau := k_tau k; k_g := Nat.min (k_g k) (w - 1); k_v := k_v k; k_c := k_c k |}.
Inductive moved (n w : nat) (pt : ptype) (e : Q) (row : list bool) : list (key * Q) -> Q -> Q -> Prop :=
| stay x : moved n w pt e row [] x x
| move k p ps x z y : (selected n (in_columns w k) row x -> in_unit z /\ clipped (target pt e p x) z) -> (~ selected n (in_columns w k) row x -> z = x) ->
    moved n w pt e row ps z y -> moved n w pt e row ((k, p) :: ps) x y.
(** ... and to the probabilities of one point: only the probability of the top label moves *)
Inductive moved_top (n w : nat) (pt : ptype) (e : Q) (row : list bool) : list (key * Q) -> list Q -> list Q -> Prop :=
| stay_top x : moved_top n w pt e row [] x x
| move_top k p ps x z y :
    (selected n (in_columns w k) row (nth (k_c k) x 0) /\ top_label_is x (k_c k) ->
       length z = length x /\ (forall j, j <> k_c k -> nth j z 0 = nth j x 0) /\ in_unit (nth (k_c k) z 0) /\ clipped (target pt e p (nth (k_c k) x 0)) (nth (k_c k) z 0)) ->
    (~ (selected n (in_columns w k) row (nth (k_c k) x 0) /\ top_label_is x (k_c k)) -> z = x) ->
    moved_top n w pt e row ps z y -> moved_top n w pt e row ((k, p) :: ps) x y.
(** the groups used when none are given *)
Definition groups_for (g : option membership) (n : nat) : membership :=
  match g with Some g => g | None => {| g_rows := repeat [true] n; g_width := 1; g_two_axes := true; g_bool := true |} end.
(** number of groups *)
Definition columns (a : args) : nat := match a_groups a with Some g => g_width g | None => 1 end.

(** the points of group [g] (and top label [c]) in the bucket around [v] *)
Definition marks (n g c : nat) (rows : list (list bool)) (v : Q) (x : array) (mask : list bool) : Prop :=
  length mask = points x /\ forall i row, nth_error rows i = Some row ->
    (nth_error mask i = Some true <-> nth g row false = true /\
       match x with
       | Vec xs => exists a, nth_error xs i = Some a /\ within n a v
       | Mat rs => exists a, nth_error rs i = Some a /\ top_label_is a c /\ within n (nth c a 0) v
       end).
(** number of marked points whose score is at most the threshold *)
Fixpoint n_covered (mask : list bool) (ss xs : list Q) : Q :=
  match mask, ss, xs with
  | b :: mask', s :: ss', x :: xs' => (if b then if Qlt_le_dec x s then 0 else 1 else 0) + n_covered mask' ss' xs'
  | _, _, _ => 0
  end.
(** squared bias of the marked points times their number *)
Definition part_error (f : family) (coverage : Q) (ss xs : list Q) (mask : list bool) : Q :=
  let bias := match f with
              | Mvp => coverage * n_where mask - n_covered mask ss xs
              | _ => sum_where mask ss - sum_where mask xs
              end in bias * bias / n_where mask.

(** the points a patch with key [k] changes *)
Definition picks (n : nat) (k : key) (rows : list (list bool)) (x : array) (mask : list bool) : Prop :=
  length mask = points x /\ forall i row, nth_error rows i = Some row ->
    (nth_error mask i = Some true <->
       match x with
       | Vec xs => exists a, nth_error xs i = Some a /\ selected n k row a
       | Mat rs => exists a, nth_error rs i = Some a /\ selected n k row (nth (k_c k) a 0) /\ top_label_is a (k_c k)
       end).
(** points of the given numbers *)
Definition points_at {A} (d : A) (idx : list nat) (l : list A) : list A := map (fun i => nth i l d) idx.
Definition array_at (idx : list nat) (x : array) : array := match x with Vec xs => Vec (points_at 0 idx xs) | Mat rs => Mat (points_at [] idx rs) end.
Definition groups_at (idx : list nat) (g : membership) : membership := {| g_rows := points_at [] idx (g_rows g); g_width := g_width g; g_two_axes := g_two_axes g; g_bool := g_bool g |}.
(** the points used for fitting: the first part of the permutation *)
Definition fitted_on (rnd : random) (a : args) (n : nat) : list nat := firstn (Z.to_nat (Qceiling (a_split a * inject_Z (Z.of_nat n)))) (r_perm rnd n).
Definition least (f : family) (a : args) : Q := match a_min_prob a with Some q => q | None => 1 / inject_Z (Z.of_nat (a_n a * width (kind_of f))) end.
(** sets that are looked at *)
Definition examined (f : family) (a : args) (k : key) : Prop := In (k_tau k) (a_types a) /\ (k_g k < columns a)%nat /\ on_grid (a_n a) (k_v k) /\ (k_c k < width (kind_of f))%nat.
(** what the patch of a set is: the bias, the ratio of the means, or the multiple of the distance of two centres that makes
    the share of covered points closest to the coverage *)
Definition patch_is (f : family) (a : args) (ss xs : list Q) (mask : list bool) (p : Q) : Prop :=
  match f, a_ptype a with
  | Mvp, _ => (2 <= a_n a)%nat -> 0 < n_where mask ->
      let miss d := a_coverage a * n_where mask - n_covered mask ss (map (fun x => x + d) xs) in
      exists j, (Z.abs j < Z.of_nat (a_n a))%Z /\ p * inject_Z (Z.of_nat (a_n a - 1)) == inject_Z j /\
      forall j' d, (Z.abs j' < Z.of_nat (a_n a))%Z -> d * inject_Z (Z.of_nat (a_n a - 1)) == inject_Z j' -> miss p * miss p <= miss d * miss d
  | _, Some Additive => p * n_where mask == sum_where mask ss - sum_where mask xs /\ (n_where mask == 0 -> p == 0)
  | _, _ => ~ sum_where mask xs == 0 /\ p * sum_where mask xs == sum_where mask ss
  end.
