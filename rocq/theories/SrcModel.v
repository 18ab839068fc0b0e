(** Model of what data loaders read from: fortuna/data/loader/utils.py (IterableData) and
    fortuna/data/loader/base.py, array_loaders.py (properties that make a pass over the data),
    with the passes made by fortuna/prob_model/{base,classification,regression}.py and
    fortuna/prob_model/posterior/map/map_posterior.py during training.

    What is modelled here is the state of the source that a loader reads: a list starts again
    with every pass, a generator does not.  LoaderModel.v models single passes over fixed data.
    A batch is a list of rows, a row an input and a label; [shape] gives the shape of the array
    of inputs of a batch without its first axis, coded as a number.  Not modelled: prefetching,
    dictionaries of inputs (except in [to_arrays]), batches whose arrays cannot be concatenated. *)
From Coq Require Import List Arith Bool String.
From Verif Require Import Lib.
Import ListNotations.
Open Scope list_scope.
Local Notation length := List.length.
Local Notation concat := List.concat.
Local Notation "a >>= f" := (bind a f) (at level 61, left associativity).

Section Sources.
Variable X : Type.                       (* inputs *)
Definition batch := list (X * nat).

(** what [IterableData.from_iterable], [from_callable], [from_tf_dataloader] and
    [from_torch_dataloader] (utils.py:32-70) wrap.  A one-shot iterable is an iterator: passes
    go on where the previous one stopped.  When a pass is broken off CPython closes the
    generators of the loader at once; [yield from] passes this on to a generator given to
    [from_iterable], but not to other iterators, nor does the [for] of the framework loaders. *)
Inductive source :=
  | Reusable (l : list batch)                    (* list, tuple, object with a fresh __iter__ *)
  | OneShot (closes : bool) (rest : list batch)
  | Calls (f : nat -> list batch) (n : nat).     (* f k: what the k-th call yields; n calls so far *)

(** a pass over the source, broken off after [n] batches if given *)
Definition cut (n : option nat) (l : list batch) : list batch := match n with None => l | Some k => firstn k l end.
Definition iterate (n : option nat) (s : source) : list batch * source :=
  match s with
  | Reusable l => (cut n l, Reusable l)
  | OneShot closes l =>
      (cut n l, OneShot closes (match n with
                                | None => []
                                | Some k => if closes then [] else skipn k l
                                end))
  | Calls f k => (cut n (f k), Calls f (S k))
  end.

(** zip over two iterations of the same loader, advancing in turn *)
Fixpoint alternate (l : list batch) : list (batch * batch) :=
  match l with a :: b :: r => (a, b) :: alternate r | _ => [] end.
Definition zip_self (s : source) : list (batch * batch) :=
  match s with
  | Reusable l => combine l l
  | OneShot _ l => alternate l
  | Calls f k => combine (f k) (f (S k))
  end.
(** array_loaders.py:64-84 with utils.py:137-151: the views read the same source; this is
    [zip(loader.to_inputs_loader(), loader.to_targets_loader())] *)
Definition zip_views (s : source) : list (list X * list nat) :=
  map (fun p => (map fst (fst p), map snd (snd p))) (zip_self s).

(** ---- loaders ---- *)
Variable shape : batch -> nat.           (* inputs.shape[1:] of a batch *)
Record loader := { src : source; labels_cache : option nat }.   (* base.py:32-34 *)
Definition new_loader (s : source) : loader := {| src := s; labels_cache := None |}.
Definition with_src (l : loader) (s : source) : loader := {| src := s; labels_cache := labels_cache l |}.

Definition rows (bs : list batch) : nat := sum_nat (map (@List.length _) bs).
(** len(np.unique(...)) *)
Definition count_labels (bs : list batch) : nat := length (nodup Nat.eq_dec (map snd (concat bs))).

Inductive op := OSize | OLen | OBool | OLabels | OShape | OArrays | OPass.
Inductive value := VNat (n : nat) | VBool (b : bool) | VRows (r : list (X * nat)) | VBatches (l : list batch).

(** np.concatenate of nothing *)
Definition np_concat (bs : list batch) : result (list (X * nat)) :=
  match bs with [] => Err ValueError | _ => Ok (concat bs) end.
(** [input_shape] of the first batch; without batches the local variable has no value *)
Definition first_shape (bs : list batch) : result nat :=
  match bs with [] => Err UnboundLocalErr | b :: _ => Ok (shape b) end.

Definition exec (o : op) (l : loader) : result value * loader :=
  match o with
  | OSize => let '(bs, s) := iterate None (src l) in (Ok (VNat (rows bs)), with_src l s)                (* base.py:39-54 *)
  | OLen => let '(bs, s) := iterate None (src l) in (Ok (VNat (length bs)), with_src l s)               (* base.py:70-79 *)
  | OBool => let '(bs, s) := iterate None (src l) in (Ok (VBool (negb (length bs =? 0))), with_src l s)  (* truth value: __len__ *)
  | OLabels =>                                                                                          (* array_loaders.py:24-28 *)
      match labels_cache l with
      | Some n => (Ok (VNat n), l)
      | None =>
          let '(bs, s) := iterate None (src l) in
          match np_concat bs with
          | Err e => (Err e, with_src l s)
          | Ok _ => (Ok (VNat (count_labels bs)), {| src := s; labels_cache := Some (count_labels bs) |})
          end
      end
  | OShape => let '(bs, s) := iterate (Some 1) (src l) in (rmap VNat (first_shape bs), with_src l s)    (* array_loaders.py:248-256 *)
  | OArrays => let '(bs, s) := iterate None (src l) in (rmap VRows (np_concat bs), with_src l s)        (* array_loaders.py:86-127 *)
  | OPass => let '(bs, s) := iterate None (src l) in (Ok (VBatches bs), with_src l s)                   (* base.py:36-37 *)
  end.
Fixpoint exec_all (os : list op) (l : loader) : list (result value) * loader :=
  match os with
  | [] => ([], l)
  | o :: r => let '(v, l1) := exec o l in let '(vs, l2) := exec_all r l1 in (v :: vs, l2)
  end.

(** ---- training: passes over the training data loader ---- *)
(** the passes of [n] epochs, trainer.py:385-404 and 478, without gradient accumulation and
    early stopping; an epoch without batches raises TypeError (TrainModel.mean_metrics).  The
    same for [n] validations, lines 534-574. *)
Fixpoint epochs (n : nat) (l : loader) : result (list (list batch)) * loader :=
  match n with
  | O => (Ok [], l)
  | S n' =>
      let '(bs, s) := iterate None (src l) in
      match bs with
      | [] => (Err TypeError, with_src l s)
      | _ => let '(r, l2) := epochs n' (with_src l s) in (rmap (cons bs) r, l2)
      end
  end.
(** map_posterior.py:81-111 from a fresh state: [input_shape] to initialise
    (posterior/base.py:90-91), [size] as training_dataset_size, then the epochs *)
Definition map_fit (n : nat) (l : loader) : result (nat * list (list batch)) :=
  let '(sh, l1) := exec OShape l in
  sh >>= fun _ =>
  let '(size, l2) := exec OSize l1 in
  size >>= fun v =>
  let '(r, _) := epochs n l2 in
  r >>= fun bs => Ok (match v with VNat k => k | _ => 0 end, bs).
(** the passes of a MAP fit over the validation loader, of which [n] are validations:
    map_posterior.py:104-106 and trainer.py:371-374 *)
Definition map_validate (n : nat) (l : loader) : result (nat * list (list batch)) :=
  let '(size, l1) := exec OSize l in
  size >>= fun v =>
  let '(_, l2) := exec OBool l1 in
  let '(r, _) := epochs n l2 in
  r >>= fun bs => Ok (match v with VNat k => k | _ => 0 end, bs).
(** classification.py:218-261; [output_dim sh] is the number of outputs of the model for inputs
    of shape [sh] *)
Definition classifier_train (output_dim : nat -> nat) (n : nat) (l : loader) : result (nat * list (list batch)) :=
  let '(size, l1) := exec OSize l in
  size >>= fun v =>
  match v with VNat 0 => Err ValueError | _ =>
    let '(labels, l2) := exec OLabels l1 in
    labels >>= fun d =>
    let '(sh, l3) := exec OShape l2 in
    sh >>= fun s =>
    match d, s with
    | VNat d', VNat s' => if output_dim s' =? d' then map_fit n l3 else Err ValueError
    | _, _ => Err TypeError
    end
  end.
(** regression.py:130-168; [target_dim] is y.shape[1], [output_dim] the number of outputs of the
    model and the variance model together *)
Definition regressor_train (output_dim : nat -> nat) (target_dim : nat) (n : nat) (l : loader) : result (nat * list (list batch)) :=
  let '(bs, s) := iterate (Some 1) (src l) in
  match bs with
  | [] => Err ValueError
  | _ => if target_dim =? 0 then Err ValueError else
         first_shape bs >>= fun sh =>
         if output_dim sh =? 2 * target_dim then map_fit n (with_src l s) else Err ValueError
  end.

(** prob_model/base.py:92-107: the calibration data loader decides by its truth value; what is
    returned is whether [calibrate] is called, and with which loader *)
Definition calib_step (calib : option loader) : option loader :=
  match calib with
  | None => None
  | Some l => match exec OBool l with (Ok (VBool true), l1) => Some l1 | _ => None end
  end.
End Sources.
Arguments Reusable {X}. Arguments OneShot {X}. Arguments Calls {X}.
Arguments iterate {X}. Arguments cut {X}. Arguments alternate {X}. Arguments zip_self {X}. Arguments zip_views {X}.
Arguments src {X}. Arguments labels_cache {X}. Arguments new_loader {X}. Arguments with_src {X}.
Arguments rows {X}. Arguments count_labels {X}. Arguments np_concat {X}. Arguments first_shape {X}.
Arguments VNat {X}. Arguments VBool {X}. Arguments VRows {X}. Arguments VBatches {X}.
Arguments exec {X}. Arguments exec_all {X}. Arguments epochs {X}. Arguments map_fit {X}. Arguments map_validate {X}.
Arguments classifier_train {X}. Arguments regressor_train {X}. Arguments calib_step {X}.

(** ---- tensors of other frameworks, utils.py:46-70 ---- *)
(** inputs are a tensor or a dictionary of tensors; arrays are made by [numpy()], which other
    objects (dictionaries among them) do not have *)
Inductive tensors (T : Type) := One (t : T) | Dict (d : list (string * T)).
Arguments One {T}. Arguments Dict {T}.
Definition to_arrays {T A} (numpy : T -> A) (b : tensors T * tensors T) : result (tensors A * A) :=
  let inputs := match fst b with One t => One (numpy t) | Dict d => Dict (map (fun kv => (fst kv, numpy (snd kv))) d) end in
  match snd b with One t => Ok (inputs, numpy t) | Dict _ => Err AttributeError end.
Definition framework_pass {T A} (numpy : T -> A) (bs : list (tensors T * tensors T)) : result (list (tensors A * A)) :=
  mapM (to_arrays numpy) bs.
