(** Concrete networks for the cases beside the theorems about networks. *)
From Coq Require Import List Arith Lia Bool QArith Lqa.
From Verif Require Import Lib QuantModel ConfRegModel NetModel NetSpec NetProofs NetProofs2 NetProofs3.
Import ListNotations.
Open Scope Q_scope.

Definition relu (v : Q) : Q := if Qle_bool 0 v then v else 0.
Definition relu_act (x : batch) : batch := map (map relu) x.
Definition shift_act (x : batch) : batch := map (map (fun v => v + 1)) x.

Lemma relu_homogeneous : homogeneous relu.
Proof.
  unfold homogeneous, relu. split.
  - intros x y E. destruct (Qle_bool 0 x) eqn:A, (Qle_bool 0 y) eqn:B; try exact E; try reflexivity.
    + apply Qle_bool_iff in A. assert (~ 0 <= y) by (intros H; apply Qle_bool_iff in H; congruence). exfalso. apply H. lra.
    + apply Qle_bool_iff in B. assert (~ 0 <= x) by (intros H; apply Qle_bool_iff in H; congruence). exfalso. apply H. lra.
  - intros c x Hc. destruct (Qle_bool 0 x) eqn:A.
    + apply Qle_bool_iff in A. assert (H : 0 <= c * x) by (apply Qmult_le_0_compat; assumption).
      apply Qle_bool_iff in H. rewrite H. reflexivity.
    + assert (Hx : x < 0).
      { destruct (Qlt_le_dec x 0) as [H|H]; [exact H|]. apply Qle_bool_iff in H. congruence. }
      destruct (Qle_bool 0 (c * x)) eqn:B; [|ring].
      apply Qle_bool_iff in B.
      assert (E : 0 <= c * (- x)) by (apply Qmult_le_0_compat; lra). lra.
Qed.

Lemma elementwise_keeps : forall g, keeps_shape (fun x => map (map g) x).
Proof. intros g x. rewrite map_map. apply map_ext. intros r. apply map_length. Qed.

(** two hidden layers of widths 2 and 1 *)
Definition toy_ps : params := fun n =>
  match n with
  | Hidden 0 => Some ([[1; -(1)]; [2; 0]], [0; 1])
  | Hidden 1 => Some ([[1]; [3]], [-(1)])
  | Last => Some ([[2; 5]], [1; 0])
  | _ => None
  end.
Definition no_mask : nat -> nat -> nat -> bool := fun _ _ _ => true.
Definition all_dropped : nat -> nat -> nat -> bool := fun _ _ _ => false.

(** one hidden unit *)
Definition unit_ps : params := fun n =>
  match n with Hidden 0 => Some ([[1]], [0]) | Last => Some ([[1]], [0]) | _ => None end.

Lemma unit_chained : chained 1 [1%nat] [([[1]], [0])] 1.
Proof. econstructor; [|constructor]. repeat split. repeat constructor. Qed.
Lemma unit_stores : stores unit_ps [([[1]], [0])] ([[1]], [0]).
Proof.
  split; [|reflexivity]. intros [|i] l H; [|destruct i; discriminate]. injection H as <-. reflexivity.
Qed.

(** dropout is applied before the last activation, so an activation that moves zero undoes it *)
Lemma dropout_refuted : exists ps widths rate mask acts layers last d e out x y,
  widths <> [] /\ length widths = length acts /\ Forall keeps_shape acts /\ chained d widths layers e
  /\ well_shaped last e out /\ stores ps layers last /\ rows_of d x
  /\ mlp ps widths rate mask true acts out x = Ok y
  /\ ~ batch_eq y (forward_dropout (dropout rate mask false) 0 (combine layers acts) last x).
Proof.
  exists unit_ps, [1%nat], (1 # 2), all_dropped, [shift_act], [([[1]], [0])], ([[1]], [0]), 1%nat, 1%nat, 1%nat, [[5]].
  eexists. repeat match goal with |- _ /\ _ => split end.
  - discriminate.
  - reflexivity.
  - constructor; [apply elementwise_keeps|constructor].
  - apply unit_chained.
  - repeat split. repeat constructor.
  - apply unit_stores.
  - repeat constructor.
  - vm_compute. reflexivity.
  - intros H. vm_compute in H. inversion H as [|? ? ? ? H1 _]; subst. inversion H1 as [|? ? ? ? H2 _]; subst. discriminate H2.
Qed.

(** a residual network with three hidden units per layer and three layers *)
Definition res_ps : params := fun n =>
  match n with
  | Hidden 0 => Some ([[1; 2]], [0; 0])
  | Hidden 1 => Some ([[1; 0]; [0; -(1)]], [0; 0])
  | Hidden 2 => Some ([[0; 1]; [1; 0]], [1; 1])
  | Last => Some ([[1]; [1]], [0])
  | _ => None
  end.
(** widths 2 and 1: the second layer's single unit is added to both units *)
Definition wide_ps : params := fun n =>
  match n with
  | Hidden 0 => Some ([[1; 2]], [0; 0])
  | Hidden 1 => Some ([[1]; [1]], [10])
  | Last => Some ([[1]; [1]], [0])
  | _ => None
  end.
