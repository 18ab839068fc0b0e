(** Vocabulary for the statements about training, independent of TrainModel.v. *)
From Coq Require Import List Arith ZArith QArith Bool String.
Import ListNotations.
Open Scope list_scope.
Local Notation length := List.length.

(** [R i] says that the metric of the i-th validated epoch improved: it beats the
    latest earlier metric that improved by more than delta (the first one always does). *)
Definition improvements (delta : Q) (ms : list Q) (R : nat -> Prop) : Prop :=
  forall i, (i < length ms)%nat ->
    (R i <-> forall j, (j < i)%nat -> R j -> (forall l, (j < l < i)%nat -> ~ R l) ->
             (nth i ms 0 < nth j ms 0 - delta)%Q).

(** More than p metrics in a row that are not improvements. *)
Definition stalled (p : nat) (ms : list Q) (R : nat -> Prop) : Prop :=
  exists t, (t + p + 1 <= length ms)%nat /\ forall l, (t <= l < t + p + 1)%nat -> ~ R l.

(** The i-th metric is strictly lower than every earlier one. *)
Definition new_minimum (ms : list Q) (i : nat) : Prop :=
  forall j, (j < i)%nat -> (nth i ms 0 < nth j ms 0)%Q.

(** One epoch: the callbacks around one pass over the batches, in order, each batch
    used exactly once with the step number as its key. *)
Definition one_epoch {S B A} (step_no : S -> nat) (tstep : S -> B -> nat -> S * A)
    (start step_end finish : S -> S) (bs : list B) (s : S) : S :=
  finish (fold_left (fun s b => step_end (fst (tstep s b (step_no s)))) bs (start s)).

(** All micro-batches of a group are differentiated at the same parameters. *)
Fixpoint micro_gradients {P M B G A} (f : P -> M -> B -> nat -> G * M * A) (p : P) (m : M) (l : list (B * nat))
    : list G * M :=
  match l with
  | [] => ([], m)
  | (b, key) :: r =>
      let '(g, m', _) := f p m b key in
      let '(gs, m'') := micro_gradients f p m' r in (g :: gs, m'')
  end.

(** Sum of a non-empty list of gradients. *)
Definition total {G} (gadd : G -> G -> G) (gs : list G) : option G :=
  match gs with [] => None | g :: r => Some (fold_left (fun a x => gadd x a) r g) end.

(** What one group of micro-batches should do to parameters, optimizer state and mutable. *)
Definition group_update {P O M B G A} (f : P -> M -> B -> nat -> G * M * A)
    (gadd : G -> G -> G) (mean_of : G -> G) (clip : G -> G) (opt : G -> O -> P -> P * O)
    (x : P * O * M) (l : list (B * nat)) : P * O * M :=
  let '(p, o, m) := x in
  let '(gs, m') := micro_gradients f p m l in
  match total gadd gs with
  | None => (p, o, m')
  | Some g => (opt (clip (mean_of g)) o p, m')
  end.

(** gradients that are vectors of rationals *)
Definition vadd (a b : list Q) : list Q := map (fun p => (fst p + snd p)%Q) (combine a b).
Definition vdiv (a : list Q) (k : nat) : list Q := map (fun x => (x / inject_Z (Z.of_nat k))%Q) a.
Definition vzero (a : list Q) : list Q := map (fun _ => 0%Q) a.

(** n-fold application *)
Fixpoint times {A} (n : nat) (f : A -> A) (x : A) : A :=
  match n with O => x | S m => times m f (f x) end.

(** One pass over the batches, with what each step reports. *)
Fixpoint one_pass {S B A} (step_no : S -> nat) (tstep : S -> B -> nat -> S * A) (step_end : S -> S)
    (bs : list B) (s : S) : S * list A :=
  match bs with
  | [] => (s, [])
  | b :: r =>
      let '(s1, a) := tstep s b (step_no s) in
      let '(s2, l) := one_pass step_no tstep step_end r (step_end s1) in (s2, a :: l)
  end.

(** With groups of k micro-batches: key of micro-batch i, and callbacks only at the
    end of a group. *)
Definition grouped_epoch {S B A} (k : nat) (step_no : S -> nat) (tstep : S -> B -> nat -> S * A)
    (start step_end finish : S -> S) (bs : list B) (s : S) : S :=
  let base := step_no (start s) in
  finish (fold_left (fun s ib => let s1 := fst (tstep s (snd ib) (base + k * (fst ib / k))%nat) in
                                 if ((fst ib + 1) mod k =? 0)%nat then step_end s1 else s1)
                    (combine (seq 0 (length bs)) bs) (start s)).

(** Average of the j-th entries of the rows. *)
Definition column_mean (j : nat) (rows : list (list Q)) : Q :=
  (fold_right Qplus 0 (map (fun r => nth j r 0) rows) / inject_Z (Z.of_nat (length rows)))%Q.

(** What a history of epochs should be: the column means of the rows. *)
Definition is_mean_of (rows : list (list Q)) (m : list Q) : Prop :=
  rows <> [] /\ length m = length (hd [] rows) /\
  forall j, (j < length m)%nat -> nth j m 0%Q = column_mean j rows.

Definition validation_epochs (every : Z) (n : nat) : list nat :=
  filter (fun e => (0 <? every)%Z && (Z.of_nat e mod every =? 0)%Z) (seq 0 n).

(** A trainable state that remembers the keys its steps received. *)
Definition logging {S B A} (tstep : S -> B -> nat -> S * A) (x : S * list nat) (b : B) (key : nat) : (S * list nat) * A :=
  let r := tstep (fst x) b key in ((fst r, snd x ++ [key]), snd r).
Definition on_state {S L} (f : S -> S) (x : S * L) : S * L := (f (fst x), snd x).

(** Keys used in E epochs of n batches, in groups of k, from step number base. *)
Definition group_keys (k n E base : nat) : list nat :=
  flat_map (fun e => map (fun i => base + e * n + k * (i / k))%nat (seq 0 n)) (seq 0 E).
