(** Small predictive objects for the examples of DrawProps, and the refutations that use them. *)
From Coq Require Import List Arith Bool Lia QArith Reals String.
From Verif Require Import Lib LoaderModel PredModel DrawModel DrawSpec DrawProofs DrawProofs2 DrawProofs3.
Import ListNotations.
Local Open Scope nat_scope.

(** a number for every key; a linear model; and a class that is the row's number in its batch *)
Definition move_number (m : move) : nat := match m with Cut l i => 1 + i | Fold i => 7 + i end.
Definition key_number (k : key) : nat := fold_left (fun a m => 3 * a + move_number m) k 0.
Definition toy_post (k : key) : Q := inject_Z (Z.of_nat (key_number k)).
Definition toy_out (p x : Q) : Q := (p * x)%Q.
Definition last_index (k : key) : nat := match last k (Fold 0) with Cut _ i => i | Fold i => i end.
Definition toy_choice (k : key) (m t : nat) (y : Q) : nat := last_index k.

Theorem sample_batching : forall label g, exists X P Y T (post : key -> P) (out : P -> X -> Y) (choice : key -> nat -> nat -> Y -> T) l1 l2,
  List.concat l1 = List.concat l2 /\ l1 <> [] /\ l2 <> []
  /\ fst (sample label post out (class_noise label choice) 1 [] None g l1) <> fst (sample label post out (class_noise label choice) 1 [] None g l2).
Proof.
  intros label g. exists Q, Q, Q, nat, toy_post, toy_out, toy_choice, [[1%Q; 1%Q]], [[1%Q]; [1%Q]].
  split; [reflexivity|]. split; [discriminate|]. split; [discriminate|].
  assert (N : forall k b j m t y, j < b -> class_noise label toy_choice k m b t j y = j).
  { intros k b j m t y L. unfold class_noise, toy_choice, last_index. rewrite nth_split by auto. now rewrite last_last. }
  rewrite !sample_eq by discriminate. cbn [fst map seq List.concat]. unfold sampled. cbn [map combine seq List.length fst snd app].
  rewrite !N by lia. discriminate.
Qed.
Theorem outputs_devices : forall label g, exists X P Y (post : key -> P) (out : P -> X -> Y) loader,
  loader <> [] /\ fst (outputs_loader label post out true 1 1 None g loader) <> fst (outputs_loader label post out false 1 1 None g loader).
Proof.
  intros label g. exists nat, key, nat, (fun k => k), (fun k _ => List.length k), [[5]]. split; [discriminate|].
  cbn. rewrite !app_length. cbn. intros E. inversion E. lia.
Qed.
