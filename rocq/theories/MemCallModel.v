(** Callbacks of deep ensembles: fortuna/prob_model/posterior/deep_ensemble/deep_ensemble_posterior.py:117-192.
    Every member is trained by a new trainer (:134-145), but with the callbacks of the configuration (:158), which are
    the same objects for all members, with the attributes that the members before have left.  Training with callbacks is that of
    CallModel.v; the state a member starts from is in EnsModel.v. *)
From Coq Require Import List Arith ZArith QArith.
From Verif Require Import Lib TrainModel CallModel.
Import ListNotations.

Section Members.
Variables St A Batch VBatch : Type.
(** trainer.py:65-93 *)
Definition fresh_trainer {X} : trainer X := {| es := stopping0; gstep := 0; saved := [] |}.
(** :182-192; the key of the run (:148) makes [tstep j].  Returns what is kept of each member, and the attributes of the
    callbacks. *)
Fixpoint fit_members (step_no : St -> nat) (tstep : nat -> St -> Batch -> nat -> St * list Q) (vstep : St -> VBatch -> list Q)
    (callbacks : option (list (callback St A))) (monitor : list Q -> option Q) (c : config)
    (bs : list Batch) (vs : option (list VBatch)) (j : nat) (starts : list St) (a : A)
    : result (list (trainer (A * St) * St * list (list Q) * list (list Q)) * A) :=
  match starts with
  | [] => Ok ([], a)
  | s :: r =>
      bind (train_with step_no (tstep j) vstep callbacks monitor c bs vs fresh_trainer (a, s)) (fun res =>
        let '(t, x, ms, mvs) := res in
        rmap (fun la => ((t, snd x, ms, mvs) :: fst la, snd la)) (fit_members step_no tstep vstep callbacks monitor c bs vs (S j) r (fst x)))
  end.
End Members.
Arguments fit_members {St A Batch VBatch}.
