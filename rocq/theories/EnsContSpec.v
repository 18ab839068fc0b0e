(** Words for the properties of continued fits of ensembles. *)
From Coq Require Import List Arith.
From Verif Require Import Lib NestedModel EnsModel ContModel EnsContModel.
Import ListNotations.

(** the fits of member [j] of an ensemble of [size], as fits of MAP: every fit takes [size] keys *)
Fixpoint own_fits {V B O} (size j : nat) (l : list (ens_args V B O)) (run : nat) : list (fit_args V B O) :=
  match l with
  | [] => []
  | a :: r => {| a_cfg := e_cfg a; a_run := run + j; a_batches := e_passes a j; a_file := e_file a |} :: own_fits size j r (run + size)
  end.
