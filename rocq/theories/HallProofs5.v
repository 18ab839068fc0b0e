(** The first character of a cleaned text. *)
From Coq Require Import List Arith Bool Ascii String Lia.
From Verif Require Import Lib HallModel HallSpec HallProofs4.
Import ListNotations.
Open Scope list_scope.

Definition lower_letter (c : ascii) : bool := let n := nat_of_ascii c in ((97 <=? n) && (n <=? 122))%nat.
Lemma lower_letter_iff c : lower_letter c = true <-> (97 <= nat_of_ascii c <= 122)%nat.
Proof. unfold lower_letter. now rewrite andb_true_iff, !Nat.leb_le. Qed.
Lemma upper_not_lower c : lower_letter (to_upper c) = false.
Proof. all_chars c. Qed.
Lemma lstrip_snoc a l : is_space a = false -> exists r, lstrip (l ++ [a]) = r ++ [a].
Proof.
  intros S. induction l as [|x l IH]; cbn [app lstrip]; [rewrite S; now exists []|].
  destruct (is_space x); [exact IH|]. now exists (x :: l).
Qed.
Lemma strip_cons a l : is_space a = false -> exists r, strip (a :: l) = a :: r.
Proof.
  intros S. unfold strip. cbn [lstrip]. rewrite S. cbn [rev]. destruct (lstrip_snoc a (rev l) S) as [r ->].
  rewrite rev_app_distr. cbn [rev app]. eauto.
Qed.
Lemma strip_head l a r : strip l = a :: r -> is_space a = false.
Proof.
  unfold strip. destruct (lstrip l) as [|x m] eqn:E; [discriminate|]. assert (X := lstrip_hd _ _ _ E). 
  cbn [rev]. destruct (lstrip_snoc x (rev m) X) as [q ->]. rewrite rev_app_distr. cbn [rev app]. intros H. injection H as <- _. exact X.
Qed.
Lemma sentences_head t a l : sentences "!" t = a :: l -> is_space a = false /\ lower_letter a = false.
Proof.
  unfold sentences. destruct (split_on "!" t) as [|s ss] eqn:E; [discriminate|]. cbn [map]. destruct (strip s) as [|x m] eqn:ES.
  - cbn [capitalize]. destruct ss; cbn [map join app]; [discriminate|]. intros H. injection H as <- _. split; reflexivity.
  - cbn [capitalize]. intros H. assert (A : a = to_upper x) by (destruct ss; cbn [map join app] in H; injection H as <- _; reflexivity).
    rewrite A, space_upper. split; [now apply strip_head in ES|apply upper_not_lower].
Qed.
Theorem first_character : forall text c r, string_cleaner text = c :: r -> ~ (97 <= nat_of_ascii c <= 122)%nat.
Proof.
  intros text c r H. rewrite <- lower_letter_iff. rewrite cleaner_eq in H. revert H.
  destruct (sentences "!" _) as [|a l] eqn:E; [discriminate|]. apply sentences_head in E as [S L].
  unfold quotes. cbn [split_on]. destruct (Ascii.eqb a "'") eqn:Q.
  - cbn [map strip lstrip rev]. rewrite join_cons by (intros X; apply map_eq_nil in X; now apply split_nonempty in X). cbn [app]. intros H. injection H as <- _. discriminate.
  - destruct (split_on "'" l) as [|s ss]; cbn [map].
    + destruct (strip_cons a [] S) as [q ->]. cbn [join]. intros H. injection H as <- _. now rewrite L.
    + destruct (strip_cons a s S) as [q ->]. intros H. assert (c = a) as -> by (destruct ss; cbn [map join app] in H; injection H as <- _; reflexivity). now rewrite L.
Qed.
