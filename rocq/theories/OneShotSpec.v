(** Vocabulary for the statements about the one-shot multicalibrators. *)
From Coq Require Import List Arith ZArith QArith Qabs Bool.
From Verif Require Import Lib QuantModel ConfRegModel ConfClassModel MultiModel MultiSpec OneShotModel.
Import ListNotations.
Open Scope Q_scope.

Definition axes (a : array) : nat := match a with Vec _ => 1 | Mat _ => 2 end.
Definition points (a : array) : nat := match a with Vec l => length l | Mat rows => length rows end.
Definition all_entries (P : Q -> Prop) (a : array) : Prop := match a with Vec l => Forall P l | Mat rows => Forall (Forall P) rows end.
(** every row of a matrix has an entry *)
Definition full_rows (a : array) : Prop := match a with Vec _ => True | Mat rows => Forall (fun row => row <> []) rows end.
(** axes of the values a calibrator works on, and number of its dimensions *)
Definition needed (k : kind) : nat := match k with TopLabel _ => 2 | _ => 1 end.
Definition width (k : kind) : nat := match k with TopLabel m => m | _ => 1 end.

(** what the three classes require of the targets *)
Definition good_targets (k : kind) (t : typed) : Prop :=
  exists l, t_array t = Vec l /\
  match k with
  | Plain => Forall in_unit l
  | Binary => t_int t = true /\ (forall y, In y l -> y == 0 \/ y == 1) /\ (exists y, In y l /\ y == 0) /\ (exists y, In y l /\ y == 1)
  | TopLabel m => t_int t = true /\ (0 < m)%nat
  end.
Definition acceptable (k : kind) (t : typed) (values test : option array) (p : option Q) : Prop :=
  good_targets k t /\
  (exists a, values = Some a /\ axes a = needed k /\ all_entries in_unit a) /\
  (forall a, test = Some a -> all_entries in_unit a /\ (k <> Plain -> axes a = needed k)) /\
  (forall q, p = Some q -> in_unit q).
(** one target per value, or one target or one value for all *)
Definition compatible (t : typed) (a : array) : Prop := points (t_array t) = points a \/ points (t_array t) = 1%nat \/ points a = 1%nat.

(** bucket number [j] of [n] *)
Definition centre (n j : nat) : Q := inject_Z (Z.of_nat j) / inject_Z (Z.of_nat (n - 1)).
Definition within (n : nat) (x v : Q) : Prop := Qabs (x - v) * (2 * inject_Z (Z.of_nat n)) < 1.
(** the points whose (top) label is [c] and whose value is in the bucket around [v] *)
Definition mask_is (n c : nat) (v : Q) (a : array) (bs : list bool) : Prop :=
  match a with
  | Vec l => Forall2 (fun x b => b = true <-> within n x v) l bs
  | Mat rows => Forall2 (fun row b => b = true <-> top_label_is row c /\ within n (nth c row 0) v) rows bs
  end.
(** what a target says about dimension [c] *)
Definition score_is (k : kind) (c : nat) (t s : Q) : Prop :=
  match k with
  | TopLabel _ => (t == inject_Z (Z.of_nat c) -> s == 1) /\ (~ t == inject_Z (Z.of_nat c) -> s == 0)
  | _ => s == t
  end.
Definition stretched {A} (n : nat) (l l' : list A) : Prop := length l' = n /\ (l' = l \/ exists x, l = [x] /\ l' = repeat x n).
Definition threshold (k : kind) (n : nat) (p : option Q) : Q :=
  match p with Some q => q | None => 1 / (inject_Z (Z.of_nat n) * inject_Z (Z.of_nat (width k))) end.

(** [j] is the bucket nearest to the largest value of [all] in the bucket of [x] *)
Definition sent_to (n : nat) (all : list Q) (x : Q) (j : nat) : Prop :=
  exists v, In v all /\ within n x v /\ (forall w, In w all -> within n x w -> w <= v) /\
    (j < n)%nat /\ (forall j', (j' < n)%nat -> Qabs (centre n j - v) <= Qabs (centre n j' - v)) /\
    (forall j', (j' < j)%nat -> Qabs (centre n j - v) < Qabs (centre n j' - v)).
Definition on_grid (n : nat) (x : Q) : Prop := exists j, (j < n)%nat /\ x == centre n j.
(** rows as wide as the calibrator *)
Definition of_width (k : kind) (a : array) : Prop := match a with Vec _ => True | Mat rows => rectangular (width k) rows end.
(** the points whose (top) label is [c] and whose value is [v] *)
Definition exactly (c : nat) (v : Q) (a : array) (bs : list bool) : Prop :=
  match a with
  | Vec l => Forall2 (fun x b => b = true <-> x == v) l bs
  | Mat rows => Forall2 (fun row b => b = true <-> top_label_is row c /\ nth c row 0 == v) rows bs
  end.
Definition dimension (c : nat) (a : array) : list Q := match a with Vec l => l | Mat rows => map (fun row => nth c row 0) rows end.
(** the scores of the targets, one row per target and one entry per dimension *)
Definition scores_are (k : kind) (l : list Q) (ss : list (list Q)) : Prop :=
  Forall2 (fun t s => length s = width k /\ forall c, (c < width k)%nat -> score_is k c t (nth c s 0)) l ss.
(** sum of squared differences with the scores, over points and dimensions *)
Definition squared_error (a : array) (ss : list (list Q)) : Q :=
  match a with Vec xs => sq_error xs (map (fun s => nth 0 s 0) ss) | Mat rows => rows_sq_error rows ss end.
