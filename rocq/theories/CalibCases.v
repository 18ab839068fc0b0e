(** Concrete cases for the calibration properties. *)
From Coq Require Import List Arith ZArith QArith Bool String Reals Lra Lia.
From Verif Require Import Lib QuantModel TrainModel TrainSpec TempSpec PredSpec LikModel CalibModel CalibSpec CalibProofs CalibProofs2 CalibProofs3.
Import ListNotations.
Local Notation length := List.length.
Open Scope Q_scope.
Open Scope list_scope.

(** the state is the list of pairs of batch and outputs it has seen; the loss of a step is the
    value of the batch *)
Definition toy_cstep (s : list (nat * nat)) (b o key : nat) : list (nat * nat) * list Q := (s ++ [(b, o)], [inject_Z (Z.of_nat b)]).
Definition toy_cconfig (e : nat) (every : option nat) (p : option Z) : cconfig :=
  {| c_epochs := e; c_eval_every := 1; c_save_dir := true; c_save_every := every; c_stop := {| patience := p; mode := Some "min"%string; min_delta := 0 |} |}.
Definition toy_ctrain (c : cconfig) (outs : list nat) :=
  calib_train (list (nat * nat)) nat nat Q nat (@length (nat * nat)) toy_cstep (fun _ v _ => [v]) (fun m => nth_error m 0) c [10; 20]%nat outs (Some ([1; 3]%Q, [0; 0]%nat)) {| c_es := stopping0; c_saved := [] |} [].
Lemma toy_calib_run : exists t s ms mvs, toy_ctrain (toy_cconfig 3 (Some 2%nat) None) [7; 8]%nat = Ok (t, s, ms, mvs) /\
  s = [(10, 7); (20, 8); (10, 7); (20, 8); (10, 7); (20, 8)]%nat /\ map (@List.length Q) ms = [1; 1; 1]%nat /\
  map (fun x => (fst x, length (snd x))) (c_saved t) = [(false, 1); (false, 2); (false, 5); (false, 6); (true, 6)]%nat.
Proof. do 4 eexists. split; [reflexivity|]. repeat split. Qed.
Lemma toy_calib_stop : exists t s ms mvs, toy_ctrain (toy_cconfig 9 None (Some 2%Z)) [7; 8]%nat = Ok (t, s, ms, mvs) /\ length ms = 4%nat /\
  map (fun x => (fst x, length (snd x))) (c_saved t) = [(true, 2); (true, 8)]%nat.
Proof. do 4 eexists. split; [reflexivity|]. repeat split. Qed.
Lemma toy_calib_short : exists t s ms mvs, toy_ctrain (toy_cconfig 1 None None) [7]%nat = Ok (t, s, ms, mvs) /\ s = [(10, 7)]%nat.
Proof. do 4 eexists. split; reflexivity. Qed.
(** temperature scaling by division *)
Definition toy_temp (t : Q) (calib : bool) (m : option nat) (o : Q) : Q * nat := ((o / t)%Q, match m with Some n => S n | None => 0%nat end).
Definition toy_sq (o t : Q) : Q := ((o - t) * (o - t))%Q.
Lemma toy_oc : exists v a, oc_loss (Some toy_temp) toy_sq 2 1 6 (Some None) ["outputs"]%string = Ok (v, Some a) /\ (v == 4)%Q /\
  match oc_outputs a with Some o => (o == 3)%Q | None => False end /\ oc_mutable_aux a = None.
Proof. do 2 eexists. split; [reflexivity|]. repeat split. Qed.
Lemma toy_oc_method : oc_method (M := nat) (Some toy_temp) (fun o => Qle_bool 3 o) (Some {| oc_params := 4; oc_mutable := None |}) true 6 = Ok false /\
  oc_method (M := nat) (Some toy_temp) (fun o => Qle_bool 3 o) (Some {| oc_params := 4; oc_mutable := None |}) false 6 = Ok true.
Proof. split; reflexivity. Qed.
Definition toy_net (train : bool) (m : option Q) (x : Q) : Q * Q := match m with Some v => ((x + v)%Q, (v + 1)%Q) | None => (x, 0%Q) end.
Lemma toy_cm : (exists a, cm_loss (fun tr m => class_apply toy_net tr m 3) toy_sq 1 None ["outputs"]%string true None = Ok (toy_sq 3 1, a)) /\
  cm_loss (fun tr m => class_apply toy_net tr m 3) toy_sq 1 (Some 5%Q) ["outputs"; "mutable"]%string true None = Err TypeError /\
  (exists a, cm_loss (fun tr m => class_apply toy_net tr m 3) toy_sq 1 (Some 5%Q) ["outputs"]%string false None = Ok (toy_sq (3 + 5) 1, a)).
Proof. split; [eexists; reflexivity|]. split; [reflexivity|]. eexists. reflexivity. Qed.
Lemma toy_dims : class_dim_check 100 3 (distinct_labels [2; 0; 1; 0; 2]%Z) = Ok tt /\ class_dim_check 100 3 (distinct_labels [2; 0; 0; 2]%Z) = Err ValueError /\ reg_dim_check (Some 2%nat) 4 = Ok tt.
Proof. repeat split. Qed.
Lemma toy_flow : pm_calibrate (A := nat) (Ok tt) None true None (fun ps s => Ok ((fst s + 1, snd s)%nat, ps_rest ps)) true true (Some {| ps_rest := 9; ps_calib_params := 4; ps_calib_mutable := 5 |})%nat =
  Ok (Some 9, Some {| ps_rest := 9; ps_calib_params := 5; ps_calib_mutable := 5 |}, true)%nat /\
  pm_calibrate (A := nat) (P := nat) (M := nat) (Status := nat) (Err ValueError) None false None (fun _ _ => Err TypeError) true true None = Err ValueError.
Proof. split; reflexivity. Qed.
Lemma toy_start : cm_calibrate (St := nat) true true (Ok 1%nat) (Ok 2%nat) false true (Some 3%nat) (fun s => Ok (10 * s, s)%nat) = Ok (30, 3)%nat /\
  cm_calibrate (St := nat) true false (Ok 1%nat) (Ok 2%nat) false true (Some 3%nat) (fun s => Ok (10 * s, s)%nat) = Err ValueError.
Proof. split; reflexivity. Qed.
Lemma toy_random : check_not_random Nat.eqb 3 [1; 2; 3]%nat [1; 2; 3]%nat = Ok tt /\ check_not_random Nat.eqb 3 [1; 2; 3]%nat [1; 3; 2]%nat = Err ValueError.
Proof. split; reflexivity. Qed.
Lemma toy_samples : sample_outputs (fun k => (10 * k)%nat) Nat.add [1; 2]%nat [[3; 4]; [5]]%nat = ([[[13; 14]; [23; 24]]; [[15]; [25]]], 3)%nat /\
  split_outputs 0%nat 2 4 [[1; 2; 3; 4]; [5; 6; 7; 8]]%nat = Ok [[[1; 2]; [5; 6]]; [[3; 4]; [7; 8]]]%nat.
Proof. split; reflexivity. Qed.
