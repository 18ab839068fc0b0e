(** Networks and noise for the examples of LhpProps.v. *)
From Coq Require Import List Arith ZArith QArith Bool Reals Lra Lia String.
From Verif Require Import Lib LoaderModel TempModel PredModel DrawModel LhpModel LhpSpec.
Import ListNotations.
Local Notation length := List.length.
Local Open Scope R_scope.

(** two classes, with logits 0 and 0; one target of mean x and log-variance 0 *)
Definition flat_net (xs : list R) : list (list R) := map (fun _ => [0; 0]) xs.
Definition unit_net (p : R) (_ : unit) (xs : list R) : list (list R) := map (fun x => [p * x; 0]) xs.
Definition wide_net (xs : list R) : list (list R) := map (fun x => [x; 1; 0]) xs.
(** "normal numbers" t + j and "choices" that show the key *)
Definition ramp (_ : key) (_ _ _ t j _ : nat) : R := INR (t + j).
Definition show_key (k : key) (_ : list R) (_ t : nat) : key * nat := (k, t).
Definition own (n : nat) : nat := n.

Lemma flat_softmax : softmax [0; 0] = [/ 2; / 2].
Proof. unfold softmax. cbn. rewrite exp_0. repeat f_equal; field. Qed.
Lemma case_flat : class_mean flat_net None true 2 [[1; 2]; [3; 4]] = Ok [[/ 2; / 2]; [/ 2; / 2]; [/ 2; / 2]; [/ 2; / 2]]
  /\ class_variance flat_net (Some None) false 1 [[1]] = Ok [[/ 2 * (1 - / 2); / 2 * (1 - / 2)]]
  /\ class_mean flat_net None true 2 [[1; 2; 3]] = Err ValueError.
Proof.
  split; [|split; [|reflexivity]].
  - transitivity (@Ok (list (list R)) [softmax [0; 0]; softmax [0; 0]; softmax [0; 0]; softmax [0; 0]]); [reflexivity|]. now rewrite flat_softmax.
  - transitivity (@Ok (list (list R)) [map (fun p => p * (1 - p)) (softmax [0; 0])]); [reflexivity|]. now rewrite flat_softmax.
Qed.
Lemma case_wide : reg_mean wide_net None false 1 [[1]; [2]] = Ok [[1]; [2]] /\ reg_variance wide_net None false 1 [[1]] = Ok [[exp 1; exp 0]]
  /\ log_prob wide_net None reg_log_prob false 1 [[(1, [1])]] = Err ValueError.
Proof. repeat split; reflexivity. Qed.
Lemma case_keys : fst (sample own (class_layer_sample own show_key) flat_net None 2 [] None [] true 2 [[1; 2]; [3; 4]])
  = Ok ([[([Cut 2 0; Cut 4 0], 0); ([Cut 2 0; Cut 4 1], 0); ([Cut 2 0; Cut 4 2], 0); ([Cut 2 0; Cut 4 3], 0)];
         [([Cut 2 0; Cut 4 0], 1); ([Cut 2 0; Cut 4 1], 1); ([Cut 2 0; Cut 4 2], 1); ([Cut 2 0; Cut 4 3], 1)]]%nat, None)
  /\ snd (sample own (class_layer_sample own show_key) flat_net None 2 [] None [] true 2 [[1; 2]; [3; 4]]) = [Cut 2 0]
  /\ sample own (class_layer_sample own show_key) flat_net None 1 ["outputs"%string] (Some [Fold 7]) [] false 1 [[5]]
     = (Ok ([[([Fold 7; Cut 1 0], 0%nat)]], Some [[0; 0]]), []).
Proof. repeat split; reflexivity. Qed.
(** five draws 3, 4, 5, 6, 7 of a target of mean 3 and variance 1: quartiles 4 and 6 *)
Lemma case_interval : exists a b, pred_credible_interval own ramp unit_net (Some (1, tt)) (1 # 2) "two-tailed" 5 None [] false 1 [[3]] = (Ok [[a; b]], [Cut 2 0])
  /\ a = 4 /\ b = 6 /\ within a b [3; 4; 5; 6; 7] = 3%nat.
Proof.
  set (l := [3; 4; 5; 6; 7]).
  assert (S : forall t, reg_sample1 (1 * 3) 0 (ramp [Cut 2 0] 5 1 1 t 0 0) = 3 + INR t).
  { intros t. unfold reg_sample1, ramp. rewrite Nat.add_0_r. replace (1 / 2 * 0) with 0 by field. rewrite exp_0. ring. }
  exists (rquantile (map (fun t => 3 + INR t) (seq 0 5)) ((1 # 2) * (1 # 2))), (rquantile (map (fun t => 3 + INR t) (seq 0 5)) (1 - (1 # 2) * (1 # 2))).
  assert (L : map (fun t => 3 + INR t) (seq 0 5) = l) by (cbn; unfold l; repeat f_equal; ring).
  assert (LE : forall x y, x <= y -> Rleb x y = true) by (intros; unfold Rleb; destruct (Rle_dec x y); [reflexivity|lra]).
  assert (SR : rsort l = l) by (unfold l, rsort; cbn [fold_right rinsert]; repeat (rewrite LE by lra; cbn [rinsert]); reflexivity).
  assert (Q1 : rquantile l ((1 # 2) * (1 # 2)) = 4).
  { unfold rquantile. rewrite SR. set (w := Q2R _). change (4 * (1 - w) + 4 * w = 4). ring. }
  assert (Q3 : rquantile l (1 - (1 # 2) * (1 # 2)) = 6).
  { unfold rquantile. rewrite SR. set (w := Q2R _). change (6 * (1 - w) + 6 * w = 6). ring. }
  split; [|rewrite !L, Q1, Q3; repeat split].
  - transitivity (@Ok (list (list R)) [[rquantile (map (fun t => reg_sample1 (1 * 3) 0 (ramp [Cut 2 0] 5 1 1 t 0 0)) (seq 0 5)) ((1 # 2) * (1 # 2));
      rquantile (map (fun t => reg_sample1 (1 * 3) 0 (ramp [Cut 2 0] 5 1 1 t 0 0)) (seq 0 5)) (1 - (1 # 2) * (1 # 2))]], [Cut 2 0]); [reflexivity|].
    rewrite (map_ext _ _ S). reflexivity.
  - unfold within, l. cbn. repeat (destruct (Rle_dec _ _); try lra). reflexivity.
Qed.
