(** Specification of the passes over the sources of data loaders. *)
From Coq Require Import List Arith Bool String.
From Verif Require Import Lib SrcModel.
Import ListNotations.
Local Notation length := List.length.
Local Notation concat := List.concat.

(** the source gives the same batches in every pass *)
Definition repeatable {X} (s : source X) (l : list (batch X)) : Prop :=
  match s with
  | Reusable l' => l' = l
  | OneShot _ _ => False
  | Calls f _ => forall k, f k = l
  end.

(** [d] different labels occur in the batches *)
Definition different_labels {X} (l : list (batch X)) (d : nat) : Prop :=
  exists ds, NoDup ds /\ (forall y, In y ds <-> exists b r, In b l /\ In r b /\ snd r = y) /\ length ds = d.

(** what a loader of the batches [l] should say *)
Definition answers {X} (shape : batch X -> nat) (l : list (batch X)) (o : op) (v : result (value X)) : Prop :=
  match o with
  | OSize => v = Ok (VNat (length (concat l)))
  | OLen => v = Ok (VNat (length l))
  | OBool => exists b, v = Ok (VBool b) /\ (b = true <-> l <> [])
  | OLabels => (l = [] /\ v = Err ValueError) \/ (l <> [] /\ exists d, different_labels l d /\ v = Ok (VNat d))
  | OShape => (l = [] /\ v = Err UnboundLocalErr) \/ (exists b r, l = b :: r /\ v = Ok (VNat (shape b)))
  | OArrays => (l = [] /\ v = Err ValueError) \/ (l <> [] /\ v = Ok (VRows (concat l)))
  | OPass => v = Ok (VBatches l)
  end.

(** the inputs and targets of a batch *)
Definition split_batch {X} (b : batch X) : list X * list nat := (map fst b, map snd b).
