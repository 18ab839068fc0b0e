(** Further theorems of C28 and C29: values of EnbPI, arguments accepted by EnbPI and CV+. *)
From Coq Require Import List Arith ZArith QArith Qabs Bool Lia.
From Verif Require Import Lib QuantModel QuantSpec ConfRegModel ConfRegSpec EnbSpec EnbProofs.
Import ListNotations.
Open Scope Q_scope.

(** C28 *)
Theorem C28_folds_accepted : forall outputs targets test e,
  length outputs = length targets -> length test = length outputs ->
  ((Forall2 (fun o y => length o = length y) outputs targets -> exists r, cv_plus outputs targets test e = Ok r) /\
   (~ Forall2 (fun o y => length o = length y) outputs targets -> cv_plus outputs targets test e = Err ValueError)).
Proof. exact (@cv_plus_accepts). Qed.
Print Assumptions C28_folds_accepted.
Example C28_case_accepts : cv_plus [[1; 2]; [3]] [[1; 4]; [3]] [[1]; [3]] 0 = Ok [(-1, 3)] /\ cv_plus [[1; 2]; [3]] [[1; 4]; [3; 5]] [[1]; [3]] 0 = Err ValueError.
Proof. split; reflexivity. Qed.

(** C29 *)
Theorem C29_values : forall agg idx train test targets error is rs,
  enbpi agg idx train test targets error = Ok (is, rs) ->
  let T := length targets in
  length rs = T /\ length is = length (hd [] test) /\
  (forall t, (t < T)%nat -> nth t rs 0 == Qabs (nth t targets 0 - left_out agg idx train t t)) /\
  forall u lo hi, nth_error is u = Some (lo, hi) ->
    let c := quantile (map (fun t => left_out agg idx test t u) (seq 0 T)) (1 - error) in
    lo == c - quantile rs (1 - error) /\ hi == c + quantile rs (1 - error).
Proof. exact (@enbpi_value). Qed.
Print Assumptions C29_values.
Theorem C29_accepts : forall agg idx train test targets error,
  let T := length (hd [] idx) in
  let acceptable := (forall row i, In row idx -> In i row -> (i < T)%nat) /\ length train = length idx /\ length (hd [] train) = T /\
     length test = length idx /\ length targets = T in
  (acceptable -> exists r, enbpi agg idx train test targets error = Ok r) /\
  (~ acceptable -> enbpi agg idx train test targets error = Err ValueError).
Proof. exact (@enbpi_accepts). Qed.
Print Assumptions C29_accepts.

(** the first point is left out by the second bootstrap only, the second point by none *)
Example C29_case_values :
  unseen [[0; 1]; [1; 1]]%nat 0 = [1]%nat /\ unseen [[0; 1]; [1; 1]]%nat 1 = @nil nat /\
  exists is rs, enbpi qmean [[0; 1]; [1; 1]]%nat [[1; 2]; [4; 5]] [[7]; [9]] [1; 3] 0 = Ok (is, rs) /\
    Forall2 Qeq rs [3; 3] /\ Forall2 (fun a b => fst a == fst b /\ snd a == snd b) is [(6, 12)].
Proof. split; [reflexivity|]. split; [reflexivity|]. do 2 eexists. split; [reflexivity|]. split; repeat constructor; reflexivity. Qed.
Example C29_case_rejects : enbpi qmean [[0; 2]; [1; 1]]%nat [[1; 2]; [4; 5]] [[7]; [9]] [1; 3] 0 = Err ValueError
  /\ enbpi qmean [[0; 1]; [1; 1]]%nat [[1; 2]; [4; 5]] [[7]] [1; 3] 0 = Err ValueError.
Proof. split; reflexivity. Qed.
