(** Proofs about string cleaning. *)
From Coq Require Import List Arith ZArith Bool Ascii Lia.
From Verif Require Import Lib HallModel HallSpec.
Import ListNotations.
Local Notation length := List.length.
Local Notation concat := List.concat.
Open Scope list_scope.

(** ---- characters ---- *)
Lemma space_iff c : is_space c = true <-> space c.
Proof. unfold is_space, space. rewrite orb_true_iff, !andb_true_iff, !Nat.leb_le. tauto. Qed.
Lemma upper_iff c : is_upper c = true <-> upper c.
Proof. unfold is_upper, upper. rewrite andb_true_iff, !Nat.leb_le. tauto. Qed.
Ltac all_chars c := destruct c as [[] [] [] [] [] [] [] []]; try reflexivity; try discriminate.
Lemma space_lower c : is_space (to_lower c) = is_space c. Proof. all_chars c. Qed.
Lemma space_upper c : is_space (to_upper c) = is_space c. Proof. all_chars c. Qed.
Lemma lower_upper c : to_lower (to_upper c) = to_lower c. Proof. all_chars c. Qed.
Lemma lower_lower c : to_lower (to_lower c) = to_lower c. Proof. all_chars c. Qed.
Lemma upper_lower c : is_upper (to_lower c) = false. Proof. all_chars c. Qed.
Lemma lower_code c : nat_of_ascii (to_lower c) = if is_upper c then (nat_of_ascii c + 32)%nat else nat_of_ascii c.
Proof. all_chars c. Qed.
Lemma code_inj a b : nat_of_ascii a = nat_of_ascii b -> a = b.
Proof. intros H. rewrite <- (ascii_nat_embedding a), <- (ascii_nat_embedding b). now f_equal. Qed.
Lemma same_lower a b : to_lower a = to_lower b -> same_letter a b.
Proof.
  intros H. apply (f_equal nat_of_ascii) in H. rewrite !lower_code in H. unfold same_letter.
  destruct (is_upper a) eqn:A; destruct (is_upper b) eqn:B; try (left; apply code_inj; lia).
  - right. left. split; [now apply upper_iff|lia].
  - right. right. split; [now apply upper_iff|lia].
Qed.
(** characters that changing the case neither changes nor creates *)
Definition caseless (d : ascii) : Prop := forall x, (to_lower x = d <-> x = d) /\ (to_upper x = d <-> x = d).
Ltac caseless_tac := intros x; split; (split; [all_chars x|intros ->; reflexivity]).
Lemma caseless_dot : caseless "."%char. Proof. caseless_tac. Qed.
Lemma caseless_question : caseless "?"%char. Proof. caseless_tac. Qed.
Lemma caseless_bang : caseless "!"%char. Proof. caseless_tac. Qed.
Lemma caseless_quote : caseless "'"%char. Proof. caseless_tac. Qed.

(** ---- content ---- *)
Definition norm (l : list ascii) : list ascii := map to_lower (filter (fun c => negb (is_space c)) l).
Lemma norm_app a b : norm (a ++ b) = norm a ++ norm b.
Proof. unfold norm. now rewrite filter_app, map_app. Qed.
Lemma norm_cons c l : norm (c :: l) = if is_space c then norm l else to_lower c :: norm l.
Proof. unfold norm. cbn [filter]. destruct (is_space c); reflexivity. Qed.
Lemma norm_spaces b : norm b = [] -> same_content [] b.
Proof. induction b as [|c b IH]; [constructor|]. rewrite norm_cons. destruct (is_space c) eqn:S; [|discriminate]. intros H. apply same_skip_r; [now apply space_iff|auto]. Qed.
Lemma norm_same a : forall b, norm a = norm b -> same_content a b.
Proof.
  induction a as [|c a IH]; intros b H; [now apply norm_spaces|]. rewrite norm_cons in H. destruct (is_space c) eqn:S.
  - apply same_skip_l; [now apply space_iff|auto].
  - induction b as [|y b IHb]; [discriminate|]. rewrite norm_cons in H. destruct (is_space y) eqn:Sy.
    + apply same_skip_r; [now apply space_iff|auto].
    + injection H as H1 H2. apply same_keep; [now apply same_lower|auto].
Qed.
Lemma drop_eq s p rest : drop_space (s :: p :: rest) =
  if is_space s && is_punct p then match rest with [] => [p] | w :: rest' => if is_space w then p :: w :: drop_space rest' else s :: drop_space (p :: rest) end
  else s :: drop_space (p :: rest).
Proof. destruct rest; reflexivity. Qed.
Lemma norm_drop n : forall l, (length l <= n)%nat -> norm (drop_space l) = norm l.
Proof.
  induction n as [|n IH]; intros [|s [|p rest]] L; cbn [length] in L; try lia; try reflexivity.
  assert (X : norm (drop_space (p :: rest)) = norm (p :: rest)) by (apply IH; cbn [length]; lia).
  rewrite drop_eq. destruct (is_space s && is_punct p) eqn:D.
  - apply andb_true_iff in D as [S P]. destruct rest as [|w rest'].
    + rewrite (norm_cons s), S. reflexivity.
    + destruct (is_space w) eqn:W.
      * rewrite (norm_cons s), S, (norm_cons p), (norm_cons p), (norm_cons w), (norm_cons w), W. rewrite IH by (cbn [length] in *; lia). reflexivity.
      * rewrite (norm_cons s), (norm_cons s), S. exact X.
  - rewrite (norm_cons s), (norm_cons s). rewrite X. reflexivity.
Qed.
Lemma norm_lstrip l : norm (lstrip l) = norm l.
Proof. induction l as [|c l IH]; [reflexivity|]. cbn [lstrip]. destruct (is_space c) eqn:S; [|reflexivity]. now rewrite norm_cons, S. Qed.
Lemma norm_rev l : norm (rev l) = rev (norm l).
Proof. induction l as [|c l IH]; [reflexivity|]. cbn [rev]. rewrite norm_app, IH, norm_cons. rewrite (norm_cons c). destruct (is_space c); [apply app_nil_r|reflexivity]. Qed.
Lemma norm_strip l : norm (strip l) = norm l.
Proof. unfold strip. now rewrite norm_rev, norm_lstrip, norm_rev, norm_lstrip, rev_involutive. Qed.
Lemma norm_lower l : norm (map to_lower l) = norm l.
Proof. induction l as [|c l IH]; [reflexivity|]. cbn [map]. rewrite !norm_cons, space_lower, lower_lower, IH. reflexivity. Qed.
Lemma norm_capitalize l : norm (capitalize l) = norm l.
Proof. destruct l as [|c l]; [reflexivity|]. cbn [capitalize]. now rewrite !norm_cons, space_upper, lower_upper, norm_lower. Qed.
Lemma split_nonempty c l : split_on c l <> [].
Proof. destruct l as [|x l]; [discriminate|]. cbn [split_on]. destruct (Ascii.eqb x c); [discriminate|]. destruct (split_on c l); discriminate. Qed.
Lemma join_cons sep s ls : ls <> [] -> join sep (s :: ls) = s ++ sep ++ join sep ls.
Proof. destruct ls; [easy|reflexivity]. Qed.
Lemma join_split c l : join [c] (split_on c l) = l.
Proof.
  induction l as [|x l IH]; [reflexivity|]. cbn [split_on]. destruct (Ascii.eqb x c) eqn:E.
  - apply Ascii.eqb_eq in E as ->. rewrite join_cons by apply split_nonempty. rewrite IH. reflexivity.
  - destruct (split_on c l) as [|s ss] eqn:S; [now apply split_nonempty in S|]. rewrite <- IH. destruct ss; reflexivity.
Qed.
Lemma norm_join sep sep' f ls : norm sep = norm sep' -> (forall s, norm (f s) = norm s) -> norm (join sep (map f ls)) = norm (join sep' ls).
Proof.
  intros H F. induction ls as [|s ls IH]; [reflexivity|]. destruct ls as [|s2 ls]; [apply F|].
  cbn [map] in *. rewrite join_cons by discriminate. rewrite (join_cons sep' s) by discriminate. now rewrite !norm_app, IH, H, F.
Qed.
Lemma norm_sentences c l : norm (sentences c l) = norm l.
Proof. unfold sentences. rewrite (norm_join _ [c]), join_split; [reflexivity| |]. rewrite !norm_cons. reflexivity. intros s. now rewrite norm_capitalize, norm_strip. Qed.
Lemma norm_pre text : norm (sentences "!" (sentences "?" (sentences "." (drop_space text)))) = norm text.
Proof. rewrite !norm_sentences. now apply (norm_drop (length text)). Qed.

(** ---- apostrophes ---- *)
Lemma split_without c l : Forall (fun s => ~ In c s) (split_on c l).
Proof.
  induction l as [|x l IH]; [constructor; [easy|constructor]|]. cbn [split_on]. destruct (Ascii.eqb x c) eqn:E.
  - constructor; [easy|assumption].
  - destruct (split_on c l) as [|s ss] eqn:S; [now apply split_nonempty in S|]. inversion IH; subst. constructor; [|assumption]. apply Ascii.eqb_neq in E. intros [H|H]; auto.
Qed.
Lemma in_lstrip x l : In x (lstrip l) -> In x l.
Proof. induction l as [|c l IH]; [easy|]. cbn [lstrip]. destruct (is_space c); [right; auto|easy]. Qed.
Lemma in_strip x l : In x (strip l) -> In x l.
Proof. unfold strip. intros H. apply in_rev in H. apply in_lstrip in H. apply in_rev in H. now apply in_lstrip. Qed.
Lemma unquote_plain s : ~ In "'"%char s -> unquote s = s.
Proof.
  induction s as [|a s IH]; [reflexivity|]. intros N. destruct s as [|b [|c rest]]; try reflexivity. cbn [unquote]. fold unquote.
  replace (Ascii.eqb b "'") with false. rewrite andb_false_r. cbn [andb]. f_equal. apply IH. intros H. apply N. now right.
  symmetry. apply Ascii.eqb_neq. intros ->. apply N. right. now left.
Qed.
Lemma unquote_step s rest : ~ In "'"%char s -> unquote (s ++ [" "; "'"; " "]%char ++ rest) = s ++ ["'"%char] ++ unquote rest.
Proof.
  induction s as [|a s IH]; intros N; [reflexivity|]. assert (X := IH (fun H => N (or_intror H))).
  destruct s as [|b s].
  - cbn [app] in *. change (unquote (a :: " " :: "'" :: " " :: rest)%char) with (if (Ascii.eqb a " " && Ascii.eqb " " "'" && Ascii.eqb "'" " ")%char then "'"%char :: unquote (" " :: rest)%char else a :: unquote (" " :: "'" :: " " :: rest)%char).
    replace (Ascii.eqb " " "'")%char with false by reflexivity. rewrite andb_false_r. cbn [andb]. rewrite X. reflexivity.
  - assert (B : Ascii.eqb b "'" = false) by (apply Ascii.eqb_neq; intros ->; apply N; right; now left).
    destruct (s ++ [" "; "'"; " "]%char ++ rest) as [|c tail] eqn:T; [destruct s; discriminate|].
    replace ((a :: b :: s) ++ [" "; "'"; " "]%char ++ rest) with (a :: b :: c :: tail) by (cbn [app]; f_equal; f_equal; now rewrite <- T).
    replace ((b :: s) ++ [" "; "'"; " "]%char ++ rest) with (b :: c :: tail) in X by (cbn [app]; f_equal; now rewrite <- T).
    cbn [unquote]. fold unquote. rewrite B, andb_false_r. cbn [andb]. change ((a :: b :: s) ++ ["'"%char] ++ unquote rest) with (a :: ((b :: s) ++ ["'"%char] ++ unquote rest)). f_equal. exact X.
Qed.
Lemma unquote_join segs : Forall (fun s => ~ In "'"%char s) segs -> unquote (join [" "; "'"; " "]%char segs) = join ["'"%char] segs.
Proof.
  induction 1 as [|s segs N F IH]; [reflexivity|]. destruct segs as [|s2 segs]; [now apply unquote_plain|].
  rewrite join_cons by discriminate. rewrite unquote_step by assumption. rewrite IH. symmetry. apply join_cons. discriminate.
Qed.
Definition quotes (t : list ascii) : list ascii := join ["'"%char] (map strip (split_on "'" t)).
Lemma cleaner_eq text : string_cleaner text = quotes (sentences "!" (sentences "?" (sentences "." (drop_space text)))).
Proof.
  unfold string_cleaner, quotes. cbv zeta. apply unquote_join. apply Forall_map. eapply Forall_impl; [|apply split_without]. intros s N H. apply N. now apply in_strip.
Qed.
Lemma content : forall text, same_content text (string_cleaner text).
Proof.
  intros text. apply norm_same. rewrite cleaner_eq. unfold quotes. rewrite (norm_join _ ["'"%char]); [|reflexivity|apply norm_strip]. now rewrite join_split, norm_pre.
Qed.

(** ---- ends ---- *)
Lemma lstrip_hd l c r : lstrip l = c :: r -> is_space c = false.
Proof. induction l as [|x l IH]; [discriminate|]. cbn [lstrip]. destruct (is_space x) eqn:S; [auto|]. intros H. injection H as <- _. assumption. Qed.
Lemma lstrip_suffix l : exists a, l = a ++ lstrip l.
Proof. induction l as [|x l (a & IH)]; [now exists []|]. cbn [lstrip]. destruct (is_space x); [|now exists []]. exists (x :: a). cbn [app]. now f_equal. Qed.
Lemma strip_infix l : exists a b, l = a ++ strip l ++ b.
Proof.
  destruct (lstrip_suffix l) as (a & A). unfold strip. set (m := lstrip l) in *. destruct (lstrip_suffix (rev m)) as (b & B).
  exists a, (rev b). rewrite <- rev_app_distr, <- B, rev_involutive. exact A.
Qed.
Lemma rev_lstrip_prefix m : exists b, m = rev (lstrip (rev m)) ++ b.
Proof. destruct (lstrip_suffix (rev m)) as (b & B). exists (rev b). now rewrite <- rev_app_distr, <- B, rev_involutive. Qed.
Lemma trimmed_strip l : trimmed (strip l).
Proof.
  unfold strip. split.
  - intros c r H S. apply space_iff in S. destruct (rev_lstrip_prefix (lstrip l)) as (b & B). rewrite H in B. cbn [app] in B. apply lstrip_hd in B. congruence.
  - intros c r H S. apply space_iff in S. apply (f_equal (@rev ascii)) in H. rewrite rev_involutive, rev_app_distr in H. cbn [rev app] in H. apply lstrip_hd in H. congruence.
Qed.
Lemma trimmed_join segs : Forall trimmed segs -> trimmed (join ["'"%char] segs).
Proof.
  induction 1 as [|s segs T F IH]. split; intros c r H; [discriminate|]. destruct r; discriminate.
  destruct segs as [|s2 segs]; [assumption|]. rewrite join_cons by discriminate. set (rest := join _ (s2 :: segs)) in *. cbn [app]. split.
  - intros c r H. destruct s as [|x s]; cbn [app] in H; injection H as <- _; [unfold space; cbn; lia|]. now apply (proj1 T x s).
  - intros c r H. destruct rest as [|y rest] using rev_ind.
    + apply app_inj_tail in H as [_ <-]. unfold space. cbn. lia.
    + change (s ++ "'"%char :: rest ++ [y]) with (s ++ ("'"%char :: rest) ++ [y]) in H. rewrite app_assoc in H. apply app_inj_tail in H as [_ <-]. now apply (proj2 IH y rest).
Qed.
Lemma ends : forall text, trimmed (string_cleaner text).
Proof. intros text. rewrite cleaner_eq. apply trimmed_join, Forall_map, Forall_forall. intros s _. apply trimmed_strip. Qed.

(** ---- capital letters ---- *)
Lemma in_norm d l : caseless d -> is_space d = false -> (In d (norm l) <-> In d l).
Proof.
  intros C S. unfold norm. rewrite in_map_iff. split.
  - intros (x & E & I). apply filter_In in I as [I _]. apply (proj1 (C x)) in E. now subst.
  - intros I. exists d. split; [now apply (proj1 (C d))|]. apply filter_In. split; [assumption|now rewrite S].
Qed.
Lemma split_single c l : ~ In c l -> split_on c l = [l].
Proof.
  induction l as [|x l IH]; [reflexivity|]. intros N. cbn [split_on]. replace (Ascii.eqb x c) with false. rewrite IH; [reflexivity|]. intros H; apply N; now right.
  symmetry. apply Ascii.eqb_neq. intros ->. apply N. now left.
Qed.
Lemma in_join c sep segs : In c (join sep segs) -> In c sep \/ exists s, In s segs /\ In c s.
Proof.
  induction segs as [|s segs IH]; [easy|]. destruct segs as [|s2 segs]. intros H. right. exists s. split; [now left|assumption].
  rewrite join_cons by discriminate. rewrite !in_app_iff. intros [H|[H|H]]; [right; exists s; split; [now left|assumption]|now left|].
  destruct (IH H) as [X|(s' & I & X)]; [now left|right; exists s'; split; [now right|assumption]].
Qed.
Lemma in_split c d l s : In s (split_on d l) -> In c s -> In c l.
Proof.
  revert s. induction l as [|x l IH]; intros s I Hc. destruct I as [<-|[]]. destruct Hc. cbn [split_on] in I. destruct (Ascii.eqb x d).
  - destruct I as [<-|I]; [destruct Hc|]. right. eauto.
  - destruct (split_on d l) as [|s0 ss]. destruct I as [<-|[]]. destruct Hc as [<-|[]]. now left.
    destruct I as [<-|I]; [destruct Hc as [<-|Hc]; [now left|right; apply (IH s0); [now left|assumption]]|right; apply (IH s); [now right|assumption]].
Qed.
Lemma in_quotes c t : In c (quotes t) -> c = "'"%char \/ In c t.
Proof.
  unfold quotes. intros H. apply in_join in H as [[H|[]]|(s & I & H)]; [now left|right]. apply in_map_iff in I as (s0 & <- & I). apply in_strip in H. eapply in_split; eassumption.
Qed.
Lemma lstrip_nonspace x s : is_space x = false -> lstrip (x :: s) = x :: s.
Proof. intros S. cbn [lstrip]. now rewrite S. Qed.
Lemma lstrip_app a b : lstrip (a ++ b) = match lstrip a with [] => lstrip b | l => l ++ b end.
Proof. induction a as [|x a IH]; [reflexivity|]. cbn [app lstrip]. destruct (is_space x); [exact IH|reflexivity]. Qed.
Lemma strip_cons x s : is_space x = false -> exists s', strip (x :: s) = x :: s' /\ forall c, In c s' -> In c s.
Proof.
  intros S. unfold strip. rewrite lstrip_nonspace by assumption. cbn [rev]. rewrite lstrip_app. destruct (lstrip (rev s)) as [|y l] eqn:E.
  - rewrite lstrip_nonspace by assumption. exists []. split; [reflexivity|easy].
  - rewrite rev_app_distr. exists (rev (y :: l)). split; [reflexivity|]. intros c H. apply in_rev in H. rewrite <- E in H. apply in_lstrip in H. now apply in_rev in H.
Qed.
Lemma quotes_cons x r : is_space x = false -> x <> "'"%char -> exists out, quotes (x :: r) = x :: out /\ forall c, In c out -> c = "'"%char \/ In c r.
Proof.
  intros S N. unfold quotes. cbn [split_on]. rewrite (proj2 (Ascii.eqb_neq _ _)) by assumption.
  destruct (split_on "'" r) as [|s ss] eqn:E; [now apply split_nonempty in E|]. cbn [map].
  destruct (strip_cons x s S) as (s' & -> & IS). destruct ss as [|s2 ss].
  - exists s'. split; [reflexivity|]. intros c H. right. apply IS in H. eapply in_split; [rewrite E; now left|assumption].
  - cbn [map]. rewrite join_cons by discriminate. eexists. split; [reflexivity|]. intros c H. apply in_app_iff in H as [H|[H|H]]; [right|now left|].
    + apply IS in H. eapply in_split; [rewrite E; now left|assumption].
    + apply in_join in H as [[H|[]]|(s0 & I & H)]; [now left|right]. change (strip s2 :: map strip ss) with (map strip (s2 :: ss)) in I. apply in_map_iff in I as (s3 & <- & I). apply in_strip in H. eapply in_split; [rewrite E; right; exact I|assumption].
Qed.
Lemma lower_only text : ~ In "!"%char text -> exists t, string_cleaner text = quotes (capitalize (strip t)).
Proof.
  intros N. rewrite cleaner_eq. set (t := sentences "?" _). exists t. f_equal. unfold sentences. rewrite split_single. reflexivity.
  assert (E : norm t = norm text). { unfold t. rewrite !norm_sentences. now apply (norm_drop (length text)). }
  intros H. apply N. apply (in_norm "!" text caseless_bang eq_refl). rewrite <- E. now apply (in_norm "!" t caseless_bang eq_refl).
Qed.
Lemma capitals : forall text c r, ~ In "!"%char text -> string_cleaner text = c :: r -> forall x, In x r -> ~ upper x.
Proof.
  intros text c r N H x I U. apply upper_iff in U. destruct (lower_only text N) as (t & E). rewrite E in H. clear E.
  assert (T := trimmed_strip t). destruct (strip t) as [|a l]; [discriminate|]. cbn [capitalize] in H.
  assert (SA : is_space (to_upper a) = false). { apply not_true_is_false. intros S. rewrite space_upper in S. apply (proj1 T a l eq_refl). now apply space_iff. }
  assert (LO : forall z, In z (map to_lower l) -> is_upper z = false) by (intros z Hz; apply in_map_iff in Hz as (z0 & <- & _); apply upper_lower).
  destruct (ascii_dec (to_upper a) "'") as [Q|Q].
  - rewrite Q in H. unfold quotes in H. cbn [split_on Ascii.eqb Bool.eqb] in H. 
    change (if Ascii.eqb "'" "'" then [] :: split_on "'" (map to_lower l) else match split_on "'" (map to_lower l) with s :: ss => ("'"%char :: s) :: ss | [] => [["'"%char]] end) with ([] :: split_on "'" (map to_lower l)) in H.
    cbn [map] in H. change (strip []) with (@nil ascii) in H. rewrite join_cons in H. 2:{ intros D. apply map_eq_nil in D. now apply split_nonempty in D. }
    cbn [app] in H. injection H as <- <-. fold (quotes (map to_lower l)) in I. apply in_quotes in I as [->|I]; [discriminate|]. rewrite (LO x I) in U. discriminate.
  - destruct (quotes_cons (to_upper a) (map to_lower l) SA Q) as (out & E & O). rewrite E in H. injection H as <- <-. apply O in I as [->|I]; [discriminate|]. rewrite (LO x I) in U. discriminate.
Qed.

(** ---- space after the end of a sentence ---- *)
Definition gap (c : ascii) (P : ascii -> Prop) (l : list ascii) : Prop := forall a x b, l = a ++ c :: x :: b -> P x.
Lemma gap_infix c P a l b : gap c P (a ++ l ++ b) -> gap c P l.
Proof. intros G u x v E. apply (G (a ++ u) x (v ++ b)). rewrite E, <- !app_assoc. reflexivity. Qed.
Lemma gap_absent c P l : ~ In c l -> gap c P l.
Proof. intros N a x b ->. exfalso. apply N, in_app_iff. right. now left. Qed.
Lemma gap_app c P l m : gap c P l -> gap c P m -> (forall x r, m = x :: r -> P x) -> gap c P (l ++ m).
Proof.
  intros Gl Gm Hd a. revert l Gl. induction a as [|y a IH]; intros l Gl x b E.
  - destruct l as [|z l]; cbn [app] in E. now apply (Gm [] x b). injection E as -> E. destruct l as [|z l]; cbn [app] in E. now apply (Hd x b). injection E as -> _. now apply (Gl [] x l).
  - destruct l as [|z l]; cbn [app] in E. now apply (Gm (y :: a) x b). injection E as -> E. apply (IH l) with (b := b); [|assumption]. intros u w v E'. apply (Gl (y :: u) w v). now rewrite E'.
Qed.
Definition fixed (P : ascii -> Prop) : Prop := forall x, P x -> P (to_lower x) /\ P (to_upper x).
Lemma gap_lower c P l : caseless c -> fixed P -> gap c P l -> gap c P (map to_lower l).
Proof.
  intros C F G a x b E. apply map_eq_app in E as (l1 & l2 & -> & <- & E2). apply map_eq_cons in E2 as (y & l3 & -> & Ey & E3). apply map_eq_cons in E3 as (z & l4 & -> & <- & _).
  apply (proj1 (C y)) in Ey. subst y. apply F. now apply (G l1 z l4).
Qed.
Lemma gap_capitalize c P l : caseless c -> fixed P -> gap c P l -> gap c P (capitalize l).
Proof.
  intros C F G. destruct l as [|y l]; [exact G|]. cbn [capitalize]. intros [|u a] x b E; cbn [app] in E.
  - injection E as Ey E. apply (proj2 (C y)) in Ey. subst y. destruct l as [|z l]; [discriminate|]. cbn [map] in E. injection E as <- _. apply F. now apply (G [] z l).
  - injection E as _ E. apply (gap_lower c P l C F) with (a := a) (b := b); [|assumption]. apply (gap_infix c P [y] l []). now rewrite app_nil_r.
Qed.
Lemma infix_join sep segs s : In s segs -> exists a b, join sep segs = a ++ s ++ b.
Proof.
  induction segs as [|s0 segs IH]; [easy|]. intros I. destruct segs as [|s1 segs]. destruct I as [<-|[]]. exists [], []. now rewrite app_nil_r.
  rewrite join_cons by discriminate. destruct I as [<-|I]. exists [], (sep ++ join sep (s1 :: segs)). reflexivity.
  destruct (IH I) as (a & b & ->). exists (s0 ++ sep ++ a), b. now rewrite <- !app_assoc.
Qed.
Lemma gap_split c P d l s : gap c P l -> In s (split_on d l) -> gap c P s.
Proof. intros G I. destruct (infix_join [d] _ _ I) as (a & b & E). rewrite join_split in E. subst l. now apply gap_infix in G. Qed.
Lemma gap_strip c P l : gap c P l -> gap c P (strip l).
Proof. intros G. destruct (strip_infix l) as (a & b & E). rewrite E in G. now apply gap_infix in G. Qed.
Lemma gap_app_last c P l m : gap c P l -> gap c P m -> (forall u, l <> u ++ [c]) -> gap c P (l ++ m).
Proof.
  intros Gl Gm Hl a. revert l Gl Hl. induction a as [|y a IH]; intros l Gl Hl x b E.
  - destruct l as [|z l]; cbn [app] in E. now apply (Gm [] x b). injection E as -> E. destruct l as [|z l]; cbn [app] in E. now destruct (Hl []). injection E as -> _. now apply (Gl [] x l).
  - destruct l as [|z l]; cbn [app] in E. now apply (Gm (y :: a) x b). injection E as -> E. apply (IH l) with (b := b); [| |assumption].
    + intros u w v E'. apply (Gl (y :: u) w v). now rewrite E'.
    + intros u E'. apply (Hl (y :: u)). now rewrite E'.
Qed.
Lemma gap_join c P sep segs : gap c P sep -> (forall u, sep <> u ++ [c]) -> (forall x r, sep = x :: r -> P x) -> sep <> [] -> Forall (gap c P) segs -> gap c P (join sep segs).
Proof.
  intros GS L D N F. induction F as [|s segs G F IH]; [now apply gap_absent|]. destruct segs as [|s2 segs]; [assumption|].
  rewrite join_cons by discriminate. apply gap_app; [assumption| |].
  - now apply gap_app_last.
  - intros x r H. destruct sep as [|y sep]; [easy|]. cbn [app] in H. injection H as <- _. eapply D. reflexivity.
Qed.
Lemma absent_case d s : caseless d -> ~ In d s -> ~ In d (capitalize s).
Proof.
  intros C N. destruct s as [|x s]; [exact N|]. cbn [capitalize]. intros [H|H]. apply (proj2 (C x)) in H. apply N. now left.
  apply in_map_iff in H as (y & H & I). apply (proj1 (C y)) in H. subst. apply N. now right.
Qed.
Lemma two_last (a b c : ascii) u : b <> c -> [a; b] <> u ++ [c].
Proof. intros N H. change [a; b] with ([a] ++ [b]) in H. apply app_inj_tail in H as [_ H]. auto. Qed.
(** joining at [d] puts a space after each [d] *)
Lemma gap_join_absent c P sep segs : gap c P sep -> (forall u, sep <> u ++ [c]) -> Forall (fun s => ~ In c s) segs -> gap c P (join sep segs).
Proof.
  intros GS L F. induction F as [|s segs G F IH]; [now apply gap_absent|]. destruct segs as [|s2 segs]; [now apply gap_absent|].
  rewrite join_cons by discriminate. apply gap_app_last; [now apply gap_absent|now apply gap_app_last|]. intros u ->. apply G, in_app_iff. right. now left.
Qed.
Lemma sentences_new d (P : ascii -> Prop) l : caseless d -> d <> " "%char -> P " "%char -> gap d P (sentences d l).
Proof.
  intros C N Ps. unfold sentences. apply gap_join_absent.
  - intros [|u a] x b H; cbn [app] in H. now injection H as <- _. apply (f_equal (@List.length ascii)) in H. cbn [List.length] in H. rewrite app_length in H. cbn [List.length] in H. lia.
  - intros u. apply two_last. auto.
  - apply Forall_map. eapply Forall_impl; [|apply split_without]. intros s A. apply absent_case; [assumption|]. intros I. apply A. now apply in_strip.
Qed.
(** joining at another mark keeps what follows [c] *)
Lemma sentences_keep c d (P : ascii -> Prop) l : caseless c -> fixed P -> c <> " "%char -> c <> d -> P d -> P " "%char -> gap c P l -> gap c P (sentences d l).
Proof.
  intros C F N D Pd Ps G. unfold sentences. apply gap_join.
  - apply gap_absent. intros [H|[H|[]]]; [now symmetry in H|now symmetry in H].
  - intros u. apply two_last. auto.
  - intros x r H. now injection H as <- _.
  - discriminate.
  - apply Forall_map, Forall_forall. intros s I. apply gap_capitalize; [assumption|assumption|]. apply gap_strip. eapply gap_split; eassumption.
Qed.
Lemma quotes_keep c (P : ascii -> Prop) l : c <> "'"%char -> P "'"%char -> gap c P l -> gap c P (quotes l).
Proof.
  intros N Pq G. unfold quotes. apply gap_join.
  - apply gap_absent. intros [H|[]]. now symmetry in H.
  - intros u H. destruct u as [|? [|]]; [|discriminate|discriminate]. injection H as H. now symmetry in H.
  - intros x r H. now injection H as <- _.
  - discriminate.
  - apply Forall_map, Forall_forall. intros s I. apply gap_strip. eapply gap_split; eassumption.
Qed.
Lemma after_sentence : forall text a c x b, string_cleaner text = a ++ c :: x :: b -> In c ["."; "?"; "!"]%char -> space x \/ In x ["?"; "!"; "'"]%char.
Proof.
  intros text a c x b E I. rewrite cleaner_eq in E.
  set (P := fun x => space x \/ In x ["?"; "!"; "'"]%char). change (P x).
  assert (SP : P " "%char) by (left; unfold space; cbn; lia).
  assert (PQ : P "?"%char) by (right; cbn; auto). assert (PB : P "!"%char) by (right; cbn; auto). assert (PA : P "'"%char) by (right; cbn; auto).
  assert (FX : fixed P).
  { intros y [S|H]. split; left; apply space_iff in S; apply space_iff; [now rewrite space_lower|now rewrite space_upper].
    split; right; destruct H as [<-|[<-|[<-|[]]]]; cbn; auto. }
  enough (G : gap c P (quotes (sentences "!" (sentences "?" (sentences "." (drop_space text)))))) by exact (G _ _ _ E). clear E.
  destruct I as [<-|[<-|[<-|[]]]].
  - apply quotes_keep; [discriminate|assumption|]. apply sentences_keep; auto using caseless_dot; try discriminate.
    apply sentences_keep; auto using caseless_dot; try discriminate.
    apply sentences_new; auto using caseless_dot. discriminate.
  - apply quotes_keep; [discriminate|assumption|]. apply sentences_keep; auto using caseless_question; try discriminate. apply sentences_new; auto using caseless_question. discriminate.
  - apply quotes_keep; [discriminate|assumption|]. apply sentences_new; auto using caseless_bang. discriminate.
Qed.
