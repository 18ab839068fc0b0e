(** CV+ on folds of any size is jackknife+ on the pooled data, each training point using
    the test outputs of the model of its fold. *)
From Coq Require Import List Arith ZArith QArith Bool Lia.
From Verif Require Import Lib QuantModel ConfRegModel ConfRegProofs.
Import ListNotations.
Open Scope Q_scope.

Lemma combine_app_eq {A B} (a c : list A) (b d : list B) : length a = length b -> combine (a ++ c) (b ++ d) = combine a b ++ combine c d.
Proof. revert b. induction a as [|x a IH]; intros [|y b] L; try discriminate; cbn [app combine]; [reflexivity|]. injection L as L. now rewrite IH. Qed.
Definition pooled_rows (outputs test : list (list Q)) : list (list Q) := concat (zip_with (fun o row => repeat row (length o)) outputs test).
Lemma cv_pairs_pooled t : forall outputs targets test, Forall2 (fun o y => length o = length y) outputs targets -> length test = length outputs ->
  cv_pairs t test (cv_residuals outputs targets) = combine (column t (pooled_rows outputs test)) (residuals (concat outputs) (concat targets)).
Proof.
  intros outputs targets test F. revert test. induction F as [|o y outputs targets L F IH]; intros [|row test] H; try discriminate; [reflexivity|]. injection H as H. specialize (IH test H).
  unfold cv_pairs, cv_residuals, pooled_rows, zip_with in *. cbn [combine map concat flat_map fst snd]. rewrite IH. clear IH. unfold column. rewrite map_app. unfold residuals, zip_with. rewrite (combine_app_eq o (concat outputs) y (concat targets) L), map_app, combine_app_eq. 2: { rewrite !map_length, repeat_length, combine_length. lia. }
  f_equal. clear -L. revert y L. induction o as [|a o IH]; intros [|b y] L; try discriminate; [reflexivity|]. injection L as L. cbn [combine map repeat length fst snd]. now rewrite IH.
Qed.
Theorem cv_plus_pooled : forall outputs targets test e, Forall2 (fun o y => length o = length y) outputs targets -> length test = length outputs ->
  hd [] outputs <> [] ->
  cv_plus outputs targets test e = jack_plus (concat outputs) (concat targets) (concat (zip_with (fun o row => repeat row (length o)) outputs test)) e.
Proof.
  intros outputs targets test e F L NE. unfold cv_plus, jack_plus. fold (pooled_rows outputs test).
  assert (X : existsb (fun p : list Q * list Q * list Q => negb (length (fst (fst p)) =? length (snd (fst p)))%nat) (combine (combine outputs targets) test) = false).
  { clear -F. revert test. induction F as [|o y outputs targets E F IH]; intros [|row test]; try reflexivity. cbn [combine existsb fst snd]. rewrite E, Nat.eqb_refl. cbn [negb orb]. apply IH. }
  rewrite X. assert (LC : length (concat outputs) = length (concat targets)). { clear -F. induction F; [reflexivity|]. cbn [concat]. rewrite !app_length. lia. }
  rewrite LC, Nat.eqb_refl. cbn [negb]. assert (LP : length (pooled_rows outputs test) = length (concat targets)).
  { rewrite <- LC. clear -L. revert test L. induction outputs as [|o outputs IH]; intros [|row test] L; try discriminate; [reflexivity|]. injection L as L. unfold pooled_rows, zip_with in *. cbn [combine map concat fst snd]. rewrite !app_length, repeat_length. now rewrite (IH test L). }
  rewrite LP, Nat.eqb_refl. cbn [negb]. assert (NC : n_columns (pooled_rows outputs test) = n_columns test).
  { destruct outputs as [|[|a o] outputs], test as [|row test]; try discriminate; [exfalso; now apply NE|exfalso; now apply NE|reflexivity]. }
  rewrite NC. apply (f_equal Ok). apply map_ext. intros t. rewrite cv_pairs_pooled by assumption. reflexivity.
Qed.
