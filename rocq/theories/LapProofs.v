(** Proofs about starting states, state conversion and tuning. *)
From Coq Require Import List Arith ZArith QArith Bool Lia Lqa String.
From Verif Require Import Lib QuantModel QuantProofs ConfClassModel ConfClassProofs NestedModel NestedSpec NestedProofs TempModel LapModel LapSpec.
Import ListNotations.
Local Notation length := List.length.
Open Scope Q_scope.

Lemma kind_eqb_eq a b : kind_eqb a b = true <-> a = b.
Proof. destruct a, b; cbn; split; congruence. Qed.
Lemma existsb_kind k l : existsb (kind_eqb k) l = true <-> In k l.
Proof. rewrite existsb_exists. split. intros (x & H & E). apply kind_eqb_eq in E. now subst. intros H. exists k. split; [exact H|now apply kind_eqb_eq]. Qed.
Theorem fit_start_spec : forall (S : Type) (kind : S -> state_kind) allowed dump dir restore cur current map st,
  fit_start kind allowed dump dir restore cur current map = Ok st <->
  (dump = true -> dir = true) /\
  match restore with
  | Some r => exists s, r = Ok s /\ In (kind s) allowed /\ st = FromCheckpoint s
  | None => if cur then exists s, current = Some (Ok s) /\ In (kind s) allowed /\ st = FromCurrent s
            else st = if map then FromMap else Fresh
  end.
Proof.
  intros S kind allowed dump dir restore cur current map st. unfold fit_start, check_fit_config.
  assert (C : (dump = true -> dir = true) <-> dump && negb dir = false) by (destruct dump, dir; cbn; intuition discriminate). rewrite C.
  destruct (dump && negb dir); cbn [bind]; [split; [discriminate|intros [X _]; discriminate]|].
  assert (K : forall s (ok : start S), (if existsb (kind_eqb (kind s)) allowed then Ok ok else Err ValueError) = Ok st <-> In (kind s) allowed /\ st = ok).
  { intros s ok. destruct (existsb (kind_eqb (kind s)) allowed) eqn:E. apply existsb_kind in E. split; [intros H; split; congruence|intros [_ ->]; reflexivity]. split; [discriminate|]. intros [H _]. apply existsb_kind in H. congruence. }
  destruct restore as [[s|e]|]; cbn [bind].
  - rewrite K. split. intros [H1 H2]. split; [reflexivity|]. exists s. auto. intros [_ (s' & E & H1 & H2)]. injection E as <-. auto.
  - split; [discriminate|]. intros [_ (s' & E & _)]. discriminate.
  - destruct cur. destruct current as [[s|e]|]; cbn [bind].
    + rewrite K. split. intros [H1 H2]. split; [reflexivity|]. exists s. auto. intros [_ (s' & E & H1 & H2)]. injection E as <-. auto.
    + split; [discriminate|]. intros [_ (s' & E & _)]. discriminate.
    + split; [discriminate|]. intros [_ (s' & E & _)]. discriminate.
    + split. intros H. split; congruence. intros [_ ->]. reflexivity.
Qed.
Theorem fit_start_errors : forall (S : Type) (kind : S -> state_kind) allowed dump dir restore cur current map,
  (dump = true -> dir = false -> fit_start kind allowed dump dir restore cur current map = Err ValueError) /\
  (dump = false -> forall s, ~ In (kind s) allowed -> fit_start kind allowed dump dir (Some (Ok s)) cur current map = Err ValueError) /\
  (dump = false -> fit_start kind allowed dump dir None true None map = Err AttributeError).
Proof.
  intros. repeat split.
  - intros -> ->. reflexivity.
  - intros -> s H. unfold fit_start. cbn [check_fit_config andb bind]. destruct (existsb _ allowed) eqn:E; [|reflexivity]. apply existsb_kind in E. contradiction.
  - intros ->. reflexivity.
Qed.
Theorem laplace_needs_start : forall (S : Type) (kind : S -> state_kind) dump dir cur current st,
  laplace_start kind dump dir None false current cur = Ok st -> cur = true /\ st = FromMap.
Proof. intros S kind dump dir cur current st. unfold laplace_start, fit_start, check_fit_config. destruct (dump && negb dir); cbn [bind]; [discriminate|]. destruct cur; cbn [bind]; intros H; [split; congruence|discriminate]. Qed.

(** ---- state conversion ---- *)
Lemma assoc_get_cons {A} k k' (v : A) d : assoc_get k ((k', v) :: d) = if String.eqb k k' then Some v else assoc_get k d.
Proof. reflexivity. Qed.
Theorem components_roundtrip : forall (A : Type) (means others : list (string * A)),
  (forall k, In k (map fst means) -> assoc_get k others <> None) ->
  exists d, pair_components means others = Ok d /\ first_components d = means /\ map fst (second_components d) = map fst means /\
    (NoDup (map fst means) -> forall k, In k (map fst means) -> assoc_get k (second_components d) = assoc_get k others).
Proof.
  intros A means others. unfold pair_components. induction means as [|[k v] means IH]; intros H.
  - exists []. repeat split. intros _ k [].
  - cbn [mapM fst snd]. destruct (assoc_get k others) as [h|] eqn:E; [|exfalso; apply (H k); [now left|exact E]]. destruct IH as (d & P & F & M & G). { intros k' H'. apply H. now right. }
    rewrite P. cbn [bind]. eexists. split; [reflexivity|]. cbn [first_components second_components map fst snd] in *. unfold first_components in F. unfold second_components in M, G. rewrite F, M. repeat split. intros N k' [<-|I'].
    + rewrite assoc_get_cons, String.eqb_refl. now rewrite E.
    + inversion N as [|? ? N1 N2]; subst. rewrite assoc_get_cons. destruct (String.eqb_spec k' k) as [->|D]; [contradiction|]. now apply G.
Qed.
Theorem components_missing : forall (A : Type) (means others : list (string * A)) k, In k (map fst means) -> assoc_get k others = None -> pair_components means others = Err KeyError.
Proof.
  intros A means others k. unfold pair_components. induction means as [|[k' v] means IH]; intros I E; [destruct I|]. cbn [mapM fst snd]. destruct (assoc_get k' others) as [h|] eqn:E'; [|reflexivity]. cbn [bind]. destruct I as [<-|I]; [cbn [fst] in E; congruence|]. now rewrite (IH I E).
Qed.

(** ---- tuning ---- *)
Lemma best_of_spec {C} (score : C -> Q) cs : forall best r, best_of score best cs = r ->
  match best with
  | Some (c0, s0) => exists c s, r = Some (c, s) /\ s <= s0 /\ (forall c', In c' cs -> s <= score c') /\
      ((c = c0 /\ s = s0) \/ (s < s0 /\ exists l1 l2, cs = l1 ++ c :: l2 /\ s = score c /\ forall c', In c' l1 -> s < score c'))
  | None => match cs with [] => r = None | _ => exists c s, r = Some (c, s) /\ s = score c /\ (forall c', In c' cs -> s <= score c') /\
      exists l1 l2, cs = l1 ++ c :: l2 /\ forall c', In c' l1 -> s < score c' end
  end.
Proof.
  assert (Some_case : forall cs (c0 : C) s0 r, best_of score (Some (c0, s0)) cs = r -> exists c s, r = Some (c, s) /\ s <= s0 /\ (forall c', In c' cs -> s <= score c') /\
      ((c = c0 /\ s = s0) \/ (s < s0 /\ exists l1 l2, cs = l1 ++ c :: l2 /\ s = score c /\ forall c', In c' l1 -> s < score c'))).
  { clear cs. induction cs as [|c1 cs IH]; intros c0 s0 r H; cbn [best_of] in H.
    - exists c0, s0. subst r. repeat split; [lra|intros c' []|now left].
    - destruct (Qlt_bool (score c1) s0) eqn:E.
      + apply Qltb_true in E. destruct (IH _ _ _ H) as (c & s & R & L & A & D). exists c, s. split; [exact R|]. split; [lra|]. split. intros c' [<-|I]; [exact L|now apply A]. right. destruct D as [[-> ->]|(D & l1 & l2 & Q1 & Q2 & Q3)].
        * split; [exact E|]. exists [], cs. split; [reflexivity|]. split; [reflexivity|]. intros c' [].
        * split; [lra|]. exists (c1 :: l1), l2. split; [now rewrite Q1|]. split; [exact Q2|]. intros c' [<-|I]; [exact D|now apply Q3].
      + apply Qltb_false in E. destruct (IH _ _ _ H) as (c & s & R & L & A & D). exists c, s. split; [exact R|]. split; [exact L|]. split. intros c' [<-|I]; [lra|now apply A]. destruct D as [[-> ->]|(D & l1 & l2 & Q1 & Q2 & Q3)]; [now left|]. right. split; [exact D|]. exists (c1 :: l1), l2. split; [now rewrite Q1|]. split; [exact Q2|]. intros c' [<-|I]; [lra|now apply Q3]. }
  intros [[c0 s0]|] r H; [now apply Some_case|]. destruct cs as [|c1 cs]; cbn [best_of] in H; [congruence|]. destruct (Some_case _ _ _ _ H) as (c & s & R & L & A & D). exists c, s. split; [exact R|]. destruct D as [[-> ->]|(D & l1 & l2 & Q1 & Q2 & Q3)].
  - split; [reflexivity|]. split. intros c' [<-|I]; [lra|now apply A]. exists [], cs. split; [reflexivity|intros c' []].
  - split; [exact Q2|]. split. intros c' [<-|I]; [lra|now apply A]. exists (c1 :: l1), l2. split; [now rewrite Q1|]. intros c' [<-|I]; [lra|now apply Q3].
Qed.
Theorem tuning_best : forall score n prior lo hi g c, tune_cv score n prior lo hi g true = Ok c ->
  exists before after, linspace lo hi g ++ [prior] = before ++ c :: after /\
    (forall c', In c' before -> score c < score c') /\ (forall c', In c' after -> score c <= score c').
Proof.
  intros score n prior lo hi g c. unfold tune_cv. destruct (n =? 0)%nat; [discriminate|]. cbn [negb]. destruct (best_of score None (linspace lo hi g ++ [prior])) as [[c' s]|] eqn:E; [|discriminate]. intros H. injection H as ->.
  assert (X := best_of_spec score _ None _ E). cbn beta iota in X. destruct (linspace lo hi g ++ [prior]) as [|a l] eqn:L; [discriminate|]. destruct X as (c' & s' & R & S & A & l1 & l2 & Q1 & Q2). injection R as <- <-. exists l1, l2. split; [exact Q1|]. rewrite <- S. split; [exact Q2|]. intros c' I. apply A. rewrite Q1. apply in_or_app. right. now right.
Qed.
Theorem tuning_not_worse : forall score n prior lo hi g c, tune_cv score n prior lo hi g true = Ok c -> score c <= score prior /\ (In c (linspace lo hi g) \/ c = prior).
Proof.
  intros score n prior lo hi g c H. destruct (tuning_best _ _ _ _ _ _ _ H) as (b & a & E & B & A). split.
  - assert (I : In prior (b ++ c :: a)) by (rewrite <- E; apply in_or_app; right; now left). apply in_app_or in I. destruct I as [I|[<-|I]]; [apply Qlt_le_weak; auto|lra|auto].
  - assert (I : In c (linspace lo hi g ++ [prior])) by (rewrite E; apply in_or_app; right; now left). apply in_app_or in I. destruct I as [I|[I|[]]]; auto.
Qed.
Theorem tuning_total : forall score n prior lo hi g, (0 < n)%nat -> exists c, tune_cv score n prior lo hi g true = Ok c.
Proof.
  intros score n prior lo hi g H. unfold tune_cv. destruct (Nat.eqb_spec n 0); [lia|]. cbn [negb]. destruct (best_of score None (linspace lo hi g ++ [prior])) as [[c s]|] eqn:E; [eauto|]. assert (X := best_of_spec score _ None _ E). cbn beta iota in X. destruct (linspace lo hi g ++ [prior]) as [|a l] eqn:L; [destruct (linspace lo hi g); discriminate|]. destruct X as (? & ? & R & _). discriminate.
Qed.
Theorem tuning_local_refuted : forall score n prior lo hi g c, tune_cv score n prior lo hi g false <> Ok c /\ tune_prior_log_var score n prior lo hi g false "cv" <> Ok c.
Proof. intros. unfold tune_prior_log_var, tune_cv. cbn. split; destruct (n =? 0)%nat; discriminate. Qed.
Theorem tuning_modes : forall score n prior lo hi g d mode, mode <> "cv"%string ->
  tune_prior_log_var score n prior lo hi g d mode = Err (if String.eqb mode "marginal_lik" then NotImplementedErr else ValueError).
Proof. intros. unfold tune_prior_log_var. destruct (String.eqb_spec mode "cv"); [contradiction|]. now destruct (String.eqb mode "marginal_lik"). Qed.
