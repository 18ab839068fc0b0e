From Coq Require Import List Arith Bool ZArith Reals Lra Lia Psatz.
From Verif Require Import Lib TempModel TempSpec PredSpec LapModel LapSpec LapProofs2 SngpModel SngpSpec SngpProofs ProbitModel ProbitSpec ProbitProofs ProbitProofs2 ProbitProofs3 ProbitProofs4.
Import ListNotations.
Open Scope R_scope.

Definition jac2 (o p : nat) : R := if (o =? p)%nat then INR (S o) else 0.
Lemma case_top_k : probit_scaling 2 jac2 (Some 1%nat) 0 [3; 5] = [3 / (1 + PI / 8 * 1 * 4); 5 / (1 + PI / 8 * 1 * 4)].
Proof.
  unfold probit_scaling, row_norms. assert (E : top_indices 1 [3; 5] = [1%nat]).
  { unfold top_indices, last_k, ConfClassModel.argsort. cbn [length seq fold_right ConfClassModel.arg_insert]. unfold Rleb. cbn [nth]. destruct (Rle_dec 3 5); [|lra]. reflexivity. }
  rewrite E. cbn [map rmax fold_right fold_left set_at combine fst snd]. assert (N : row_norm 2 jac2 1 = 4).
  { unfold row_norm. rewrite isum_rover, !rover_S, rover_0. unfold jac2. cbn [Nat.eqb INR]. ring. }
  rewrite N. unfold scaled_output. rewrite exp_0, !Rmult_1_r. reflexivity.
Qed.
Lemma case_sequential : nth 1 (diag_Cs 1 2 (fun t s a b => inner 3 (rows3 t a) (rows3 s b)) inv1 2 2) (fun _ => 0) 0%nat = 1 /\ inner 3 (rows3 2 0) (rows3 2 0) = 2.
Proof.
  split.
  - unfold diag_Cs. cbn [Nat.sub Nat.add Nat.ltb Nat.leb seq repeat app scan seq_step nth]. unfold seq_C, seq_M, compute_P. rewrite !isum_rover.
    cbn [Nat.mul Nat.add Nat.sub]. repeat rewrite rover_S. rewrite !rover_0.
    cbn [Nat.ltb Nat.leb Nat.sub nth andb Nat.div Nat.divmod fst Nat.modulo snd tl app]. rewrite ?isum_rover. cbn [Nat.mul Nat.add]. unfold inv1, inner, rows3. repeat rewrite rover_S. rewrite !rover_0.
    cbn [Nat.ltb Nat.leb Nat.sub nth andb Nat.div Nat.divmod fst Nat.modulo snd tl app]. field.
  - unfold inner, rows3. rewrite !rover_S, rover_0. cbn [Nat.ltb Nat.leb]. ring.
Qed.
Lemma case_check : check_sizes 4 (Some 3%Z) (Some 5%Z) = Err ValueError /\ check_sizes 4 (Some 3%Z) None = Ok (3%nat, 3%nat).
Proof. split; reflexivity. Qed.
