(** What the networks are supposed to compute, independently of the loops that compute it. *)
From Coq Require Import List Arith Bool QArith.
From Verif Require Import Lib QuantModel ConfRegModel NetModel.
Import ListNotations.
Open Scope nat_scope.

(** a layer from [i] inputs to [o] features *)
Definition well_shaped (l : layer) (i o : nat) : Prop :=
  length (fst l) = i /\ Forall (fun r => length r = o) (fst l) /\ length (snd l) = o.
(** layers of the given widths that fit together, from [d] inputs to [e] features *)
Inductive chained : nat -> list nat -> list layer -> nat -> Prop :=
| chained_nil d : chained d [] [] d
| chained_cons d w ws l ls e : well_shaped l d w -> chained w ws ls e -> chained d (w :: ws) (l :: ls) e.
(** the parameters store these layers under their names *)
Definition stores (ps : params) (layers : list layer) (last : layer) : Prop :=
  (forall i l, nth_error layers i = Some l -> ps (Hidden i) = Some l) /\ ps Last = Some last.
Definition ident (x : batch) : batch := x.
Definition rows_of (d : nat) (x : batch) : Prop := Forall (fun r => length r = d) x.
(** an activation keeps the shape of its argument *)
Definition keeps_shape (f : batch -> batch) : Prop := forall x, map (@length Q) (f x) = map (@length Q) x.
Definition rowwise (f : batch -> batch) (g : list Q -> list Q) : Prop := forall x, f x = map g x.

(** the multilayer perceptron of the literature: affine map, activation, affine map, activation, ..., affine map *)
Fixpoint forward (ls : list (layer * (batch -> batch))) (last : layer) (x : batch) : batch :=
  match ls with
  | [] => map (affine last) x
  | (l, f) :: r => forward r last (f (map (affine l) x))
  end.
(** the same with dropout on the activations of every hidden layer *)
Fixpoint forward_dropout (drop : nat -> batch -> batch) (k : nat) (ls : list (layer * (batch -> batch))) (last : layer) (x : batch) : batch :=
  match ls with
  | [] => map (affine last) x
  | (l, f) :: r => forward_dropout drop (S k) r last (drop k (f (map (affine l) x)))
  end.
(** residual blocks [h + f(affine h)] *)
Fixpoint residual_blocks (ls : list (layer * (batch -> batch))) (h : batch) : batch :=
  match ls with
  | [] => h
  | (l, f) :: r => residual_blocks r (zip_with (zip_with Qplus) h (f (map (affine l) h)))
  end.

Definition row_eq : list Q -> list Q -> Prop := Forall2 Qeq.
Definition batch_eq : batch -> batch -> Prop := Forall2 row_eq.
(** e.g. ReLU and leaky ReLU *)
Definition homogeneous (g : Q -> Q) : Prop :=
  (forall x y, x == y -> g x == g y)%Q /\ (forall c x, 0 <= c -> g (c * x) == c * g x)%Q.
(** a layer whose kernel and bias are zero *)
Definition zero_layer (l : layer) : Prop := Forall (Forall (fun v => v == 0)%Q) (fst l) /\ Forall (fun v => v == 0)%Q (snd l).
(** point [t] of the segment from [x] to [y] *)
Definition between (t : Q) (x y : list Q) : list Q := zip_with (fun a b => ((1 - t) * a + t * b)%Q) x y.

(** ---- residual convolutional networks ---- *)
Definition half_up (n : nat) : nat := (n + 1) / 2.
(** shape after the stages numbered from [i]: an empty stage changes nothing, a non-empty stage number [i] gives
    [e * nf * 2^i] channels and, unless it is the first, halves the image *)
Fixpoint stages_shape (e nf i : nat) (sizes : list nat) (x : image) : image :=
  match sizes with
  | [] => x
  | 0 :: r => stages_shape e nf (S i) r x
  | S _ :: r =>
    let '(h, w, c) := x in
    stages_shape e nf (S i) r (match i with 0 => (h, w, e * nf * 2 ^ i) | _ => (half_up h, half_up w, e * nf * 2 ^ i) end)
  end.
(** only the first block of a stage needs a projection, and not in the very first stage unless blocks expand *)
Fixpoint stages_projections (e i : nat) (sizes : list nat) : list (list bool) :=
  match sizes with
  | [] => []
  | 0 :: r => [] :: stages_projections e (S i) r
  | S n :: r => (((0 <? i) || negb (e =? 1)) :: repeat false n) :: stages_projections e (S i) r
  end.
