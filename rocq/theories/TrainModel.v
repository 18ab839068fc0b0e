(** Model of fortuna/training/trainer.py (TrainerABC.train and what it calls) and
    fortuna/training/mixin.py (WithEarlyStoppingMixin).

    The learned model, loss and optimizer are parameters.  Not modelled: logging and
    progress bars, jit and multi-device execution, dynamic_scale beyond the
    restoring of parameters, the kind of file written by a checkpoint (only when
    which state is saved). *)
From Coq Require Import List Arith ZArith QArith Bool String.
From Verif Require Import Lib QuantModel.
Import ListNotations.
Open Scope list_scope.
Local Notation length := List.length.

(** ---- early stopping ---- *)
(** flax.training.early_stopping.EarlyStopping (external): best_metric starts at
    infinity, here None; should_stop is never reset by an improvement. *)
Record stopping := { best : option Q; stale : nat; should_stop : bool; has_improved : bool }.
Definition stopping0 : stopping := {| best := None; stale := 0; should_stop := false; has_improved := false |}.

Definition es_update (min_delta : Q) (patience : nat) (e : stopping) (metric : Q) : stopping :=
  let improved := match best e with None => true | Some b => Qlt_bool min_delta (b - metric)%Q end in
  if improved
  then {| best := Some metric; stale := 0; should_stop := should_stop e; has_improved := true |}
  else {| best := best e; stale := S (stale e);
          should_stop := (patience <=? stale e)%nat || should_stop e; has_improved := false |}.

Record es_config := { patience : option Z; mode : option string; min_delta : Q }.

(** mixin.py:131-139 *)
Definition is_active (c : es_config) : bool :=
  match patience c, mode c with
  | Some p, Some m => (0 <? p)%Z && (String.eqb m "min" || String.eqb m "max")
  | _, _ => false
  end.

(** mixin.py:141-151; the monitored value is looked up by the caller *)
Definition early_stopping_update (c : es_config) (e : stopping) (value : Q) : stopping :=
  if is_active c then
    let p := match patience c with Some p => Z.to_nat p | None => 0%nat end in
    let v := if match mode c with Some m => String.eqb m "max" | None => false end then (- value)%Q else value in
    es_update (min_delta c) p e v
  else e.

(** ---- one training step, trainer.py:111-226 ---- *)
Section Step.
Variables Params OptState Grad Mutable Batch : Type.
(** value_and_grad of the loss at the parameters, on a batch with a random key given
    by the argument of fold_in: gradient, new mutable, loss and metrics *)
Variable value_and_grad : Params -> Mutable -> Batch -> nat -> Grad * Mutable * list Q.
Variable gadd : Grad -> Grad -> Grad.
Variable gdiv : Grad -> nat -> Grad.
Variable zeros_like : Grad -> Grad.
Variable clip : Grad -> Grad.              (* clip_grandients_by_norm, or nothing *)
Variable opt : Grad -> OptState -> Params -> Params * OptState.  (* tx.update + apply_updates *)

Record tstate := { params : Params; opt_state : OptState; step : nat; mutable : Mutable; acc : option Grad }.

(** flax TrainState.apply_gradients *)
Definition apply_gradients (s : tstate) (g : Grad) (m : Mutable) (a : option Grad) : tstate :=
  let po := opt g (opt_state s) (params s) in
  {| params := fst po; opt_state := snd po; step := S (step s); mutable := m; acc := a |}.

(** trainer.py:193-226 *)
Definition update_with_accumulation (k : nat) (s : tstate) (g : Grad) (m : Mutable) : tstate :=
  let grad_acc := match acc s with Some a => gadd g a | None => g end in
  if (S (step s) mod k =? 0)%nat
  then let grad := clip (gdiv grad_acc k) in apply_gradients s grad m (Some (zeros_like grad))
  else {| params := params s; opt_state := opt_state s; step := S (step s); mutable := m; acc := Some grad_acc |}.

(** trainer.py:111-191 without dynamic scale; k = gradient_accumulation_steps or 0 *)
Definition training_step (k : nat) (s : tstate) (b : Batch) (key : nat) : tstate * list Q :=
  let '(g, m, l) := value_and_grad (params s) (mutable s) b key in
  (if (1 <? k)%nat then update_with_accumulation k s g m else apply_gradients s (clip g) m (acc s), l).

(** trainer.py:153-183 with dynamic scale: [is_fin] tells whether the gradient is finite *)
Variable is_fin : Grad -> bool.
Definition training_step_scaled (k : nat) (s : tstate) (b : Batch) (key : nat) : tstate * list Q :=
  let g := fst (fst (value_and_grad (params s) (mutable s) b key)) in
  let s' := training_step k s b key in
  if is_fin g then s'
  else ({| params := params s; opt_state := opt_state s; step := step (fst s');
           mutable := mutable (fst s'); acc := acc (fst s') |}, snd s').
End Step.

(** ---- the loops, trainer.py:242-598 ---- *)
Section Loop.
Variables S Batch VBatch : Type.
Variable step_no : S -> nat.
(** training_step with the argument of fold_in; returns loss and metrics of the batch *)
Variable tstep : S -> Batch -> nat -> S * list Q.
(** validation_step *)
Variable vstep : S -> VBatch -> list Q.
(** the callbacks in sequence, trainer.py:576-582 *)
Variables cb_epoch_start cb_step_end cb_epoch_end : S -> S.
(** the monitored entry of the validation dictionary *)
Variable monitor : list Q -> option Q.

Record config := {
  accumulation : nat;              (* gradient_accumulation_steps or 0 *)
  n_epochs : nat;
  eval_every : Z;                  (* eval_every_n_epochs *)
  save_dir : bool;                 (* save_checkpoint_dir is given *)
  save_every : option nat;         (* save_every_n_steps *)
  stop_config : es_config }.

(** what a trainer object keeps: early stopping, global step, and here a log of the
    checkpoints written: global step, whether forced, state *)
Record trainer := { es : stopping; gstep : nat; saved : list (nat * bool * S) }.

Definition save (c : config) (forced : bool) (t : trainer) (s : S) : trainer :=
  if save_dir c then {| es := es t; gstep := gstep t; saved := saved t ++ [(gstep t, forced, s)] |} else t.

(** trainer.py:260-269 and the rest of training_step_end *)
Definition step_end (c : config) (t : trainer) (s : S) : trainer * S :=
  let t' := match save_every c with
            | Some n => if (0 <? n)%nat && (n <=? gstep t)%nat && (gstep t mod n =? 0)%nat then save c false t s else t
            | None => t
            end in
  (t', cb_step_end s).

(** trainer.py:478-521: i is the index of the batch in the epoch, key the argument of
    fold_in in model_key, ms the metrics kept so far (latest last) *)
Fixpoint batches_loop (c : config) (bs : list Batch) (i key : nat) (t : trainer) (s : S) (ms : list (list Q))
    : trainer * S * list (list Q) :=
  match bs with
  | [] => (t, s, ms)
  | b :: r =>
      let '(s1, m) := tstep s b key in
      let t1 := {| es := es t; gstep := Datatypes.S (gstep t); saved := saved t |} in
      let k := accumulation c in
      if (0 <? k)%nat && negb ((Datatypes.S i) mod k =? 0)%nat
      then batches_loop c r (Datatypes.S i) key t1 s1 ms
      else
        let key' := step_no s1 in
        let '(t2, s2) := step_end c t1 s1 in
        batches_loop c r (Datatypes.S i) key' t2 s2 (ms ++ [m])
  end.

(** trainer.py:584-589: stack_forest then mean of each entry; without any entry
    stack_forest raises TypeError.  All dictionaries are assumed to have the keys of
    the first. *)
Definition mean_metrics (ms : list (list Q)) : result (list Q) :=
  match ms with
  | [] => Err TypeError
  | m :: _ => Ok (map (fun j => qmean (map (fun r => nth j r 0%Q) ms)) (seq 0 (length m)))
  end.

(** trainer.py:455-532 *)
Definition training_loop (c : config) (bs : list Batch) (t : trainer) (s : S) : result (trainer * S * list Q) :=
  let s0 := cb_epoch_start s in
  let '(t1, s1, ms) := batches_loop c bs 0 (step_no s0) t s0 [] in
  bind (mean_metrics ms) (fun m => Ok (t1, cb_epoch_end s1, m)).

(** trainer.py:534-574 and 338-352 *)
Definition validation_loop (c : config) (vs : list VBatch) (t : trainer) (s : S) : result (trainer * list Q) :=
  bind (mean_metrics (map (vstep s) vs)) (fun m =>
  if is_active (stop_config c) then
    match monitor m with
    | None => Err KeyError
    | Some v =>
        let e := early_stopping_update (stop_config c) (es t) v in
        let t' := {| es := e; gstep := gstep t; saved := saved t |} in
        Ok (if has_improved e then save c true t' s else t', m)
    end
  else Ok (t, m)).

(** trainer.py:591-598 *)
Definition should_validate (c : config) (vs : option (list VBatch)) (epoch : nat) : bool :=
  match vs with
  | None => false
  | Some _ => (0 <? eval_every c)%Z && (Z.of_nat epoch mod eval_every c =? 0)%Z
  end.

(** trainer.py:384-441; returns training and validation histories *)
Fixpoint epochs_loop (c : config) (bs : list Batch) (vs : option (list VBatch)) (n epoch : nat) (t : trainer) (s : S)
    : result (trainer * S * list (list Q) * list (list Q)) :=
  match n with
  | O => Ok (t, s, [], [])
  | Datatypes.S n' =>
      bind (training_loop c bs t s) (fun r =>
      let '(t1, s1, m) := r in
      match vs with
      | Some v =>
          if should_validate c vs epoch then
            bind (validation_loop c v t1 s1) (fun r2 =>
            let '(t2, mv) := r2 in
            if is_active (stop_config c) && should_stop (es t2) then Ok (t2, s1, [m], [mv])
            else bind (epochs_loop c bs vs n' (Datatypes.S epoch) t2 s1) (fun r3 =>
                 let '(t3, s3, ms, mvs) := r3 in Ok (t3, s3, m :: ms, mv :: mvs)))
          else bind (epochs_loop c bs vs n' (Datatypes.S epoch) t1 s1) (fun r3 =>
               let '(t3, s3, ms, mvs) := r3 in Ok (t3, s3, m :: ms, mvs))
      | None => bind (epochs_loop c bs vs n' (Datatypes.S epoch) t1 s1) (fun r3 =>
               let '(t3, s3, ms, mvs) := r3 in Ok (t3, s3, m :: ms, mvs))
      end)
  end.

(** trainer.py:354-453 (freezing is in FreezeModel.v): the last thing is a forced save *)
Definition train (c : config) (bs : list Batch) (vs : option (list VBatch)) (t : trainer) (s : S)
    : result (trainer * S * list (list Q) * list (list Q)) :=
  bind (epochs_loop c bs vs (n_epochs c) 0 t s) (fun r =>
  let '(t1, s1, ms, mvs) := r in Ok (save c true t1 s1, s1, ms, mvs)).
End Loop.
