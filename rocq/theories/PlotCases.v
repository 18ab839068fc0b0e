(** Concrete plots. *)
From Coq Require Import List QArith String Permutation Sorted.
From Verif Require Import Lib PlotModel PlotSpec.
Import ListNotations.
Open Scope list_scope.

Definition two_points : list (Q * Q) := [(0, 2); (4, 2 # 1)]%Q.
Definition product_of (p : Q * Q) : Q := Qred (fst p * snd p).
(** insertion of a position among positions sorted by value *)
Fixpoint insert (c : list Q) (i : nat) (l : list nat) : list nat :=
  match l with [] => [i] | j :: r => if Qle_bool (nth i c 0%Q) (nth j c 0%Q) then i :: l else j :: insert c i r end.
Definition insertion_argsort (c : list Q) : list nat := fold_right (insert c) [] (seq 0 (List.length c)).
Lemma insert_perm c i l : Permutation (insert c i l) (i :: l).
Proof. induction l as [|j r IH]; [apply Permutation_refl|]. cbn. destruct (Qle_bool _ _); [apply Permutation_refl|]. rewrite IH. apply perm_swap. Qed.
Lemma insert_sorted c i l : StronglySorted Qle (map (fun j => nth j c 0%Q) l) -> StronglySorted Qle (map (fun j => nth j c 0%Q) (insert c i l)).
Proof.
  induction l as [|j r IH]; intros H; [repeat constructor|]. cbn in H. inversion H as [|x y S F]; subst. cbn. destruct (Qle_bool (nth i c 0%Q) (nth j c 0%Q)) eqn:E.
  - apply Qle_bool_iff in E. cbn. constructor; [exact H|]. constructor; [exact E|]. eapply Forall_impl; [|exact F]. intros a Ha. now apply Qle_trans with (nth j c 0%Q).
  - cbn. constructor; [now apply IH|]. rewrite Forall_forall in F |- *. intros a Ha. apply in_map_iff in Ha as (k & <- & K). apply (Permutation_in _ (insert_perm c i r)) in K. destruct K as [<-|K].
    + destruct (Qlt_le_dec (nth j c 0%Q) (nth i c 0%Q)) as [L|L]; [now apply Qlt_le_weak|]. apply Qle_bool_iff in L. congruence.
    + apply F. now apply (in_map (fun j => nth j c 0%Q)).
Qed.
Lemma insertion_sorts : argsorts insertion_argsort.
Proof.
  intros c. unfold insertion_argsort. generalize (seq 0 (List.length c)). intros l. induction l as [|i l [P S]]; [split; constructor|]. cbn. split; [|now apply insert_sorted].
  rewrite insert_perm. now constructor.
Qed.
