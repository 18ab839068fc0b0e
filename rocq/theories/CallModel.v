(** Callbacks in training: fortuna/training/callback.py inside the loops of fortuna/training/trainer.py (TrainModel.v).
    Callback objects have attributes; [A] is all that the methods of the callbacks can read and change besides the state of
    training, so that one object may stand in the list twice and objects may share things.  Callbacks that raise are left out. *)
From Coq Require Import List Arith ZArith QArith.
From Verif Require Import Lib TrainModel.
Import ListNotations.

(** the methods: callback.py:23, 38, 53 *)
Inductive hook := EpochStart | StepEnd | EpochEnd.

Section Call.
Variables St A Batch VBatch : Type.

(** callback.py:4-66: the methods that the class of an object overrides *)
Definition callback := hook -> option (A -> St -> A * St).
(** trainer.py:581, [getattr(callback, method_name)(state)]; a method that is not overridden returns the state (callback.py:36, 51, 66) *)
Definition call (c : callback) (h : hook) (x : A * St) : A * St :=
  match c h with Some f => f (fst x) (snd x) | None => x end.
(** trainer.py:576-582 *)
Definition callback_loop (callbacks : option (list callback)) (h : hook) (x : A * St) : A * St :=
  fold_left (fun x c => call c h x) (match callbacks with None => [] | Some l => l end) x.

(** trainer.py:354-453 with callbacks (trainer.py:318, 324 and 335 call the loop over them).  The attributes in the log of
    checkpoints only tell when a checkpoint was written, the file has the state alone. *)
Definition train_with (step_no : St -> nat) (tstep : St -> Batch -> nat -> St * list Q) (vstep : St -> VBatch -> list Q)
    (callbacks : option (list callback)) (monitor : list Q -> option Q) (c : config)
    (bs : list Batch) (vs : option (list VBatch)) (t : trainer (A * St)) (x : A * St)
    : result (trainer (A * St) * (A * St) * list (list Q) * list (list Q)) :=
  train (A * St) Batch VBatch (fun x => step_no (snd x))
    (fun x b key => let '(s, m) := tstep (snd x) b key in ((fst x, s), m))
    (fun x v => vstep (snd x) v)
    (callback_loop callbacks EpochStart) (callback_loop callbacks StepEnd) (callback_loop callbacks EpochEnd)
    monitor c bs vs t x.
End Call.
Arguments callback_loop {St A}.
Arguments call {St A}.
Arguments train_with {St A Batch VBatch}.
