(** Tuning chooses the first best candidate, on one device. *)
From Coq Require Import List Arith Bool Reals Lia Lra.
From Verif Require Import Lib TempModel TempSpec TempProofs3 LoaderModel LoaderProofs LoaderProofs2 PredSpec PredProofs5 LapModel LapProofs2 DrawModel TuneModel TuneSpec.
Import ListNotations.
Local Open Scope R_scope.
Local Open Scope nat_scope.

Lemma all_some_map {A B} (f : A -> B) l : all_some (map (fun x => Some (f x)) l) = Some (map f l).
Proof. induction l as [|a l IH]; [reflexivity|]. cbn [map all_some]. now rewrite IH. Qed.
Lemma all_some_none {A} (l : list (option A)) : In None l -> all_some l = None.
Proof. induction l as [|[a|] l IH]; cbn [all_some In]; [easy| |reflexivity]. intros [H|H]; [discriminate|]. now rewrite IH. Qed.

Lemma combine_map_seq {A} (l : list A) d : l = map (fun j => nth j l d) (seq 0 (length l)).
Proof.
  induction l as [|a l IH]; [reflexivity|]. cbn [length seq map nth]. f_equal. rewrite <- seq_shift, map_map. exact IH.
Qed.
Lemma combine_seqs {A B} (f : nat -> A) (g : nat -> B) l : combine (map f l) (map g l) = map (fun j => (f j, g j)) l.
Proof. induction l as [|a l IH]; [reflexivity|]. cbn [map combine]. now rewrite IH. Qed.

Lemma compute_std_entries hess c : fits c (length hess) -> compute_std hess c = Ok (map (fun j => laplace_std (entry c j) (nth j hess 0%R)) (seq 0 (length hess))).
Proof.
  intros F. destruct c as [v|vs]; cbn [compute_std entry].
  - f_equal. rewrite (combine_map_seq hess 0%R) at 1. now rewrite map_map.
  - cbn [fits] in F. rewrite F, Nat.eqb_refl. f_equal. rewrite (combine_map_seq vs 0%R) at 1. rewrite (combine_map_seq hess 0%R) at 1. rewrite F, combine_seqs, map_map. reflexivity.
Qed.
Lemma draw_entries noise mean hess stored given k : length mean = length hess ->
  fits (match given with Some v => v | None => stored end) (length hess) ->
  draw noise mean hess stored given k =
  Ok (all_some (map (fun j => option_map (fun s => (nth j mean 0 + s * noise k j)%R) (laplace_std (entry (match given with Some v => v | None => stored end) j) (nth j hess 0%R))) (seq 0 (length mean)))).
Proof.
  intros L F. unfold draw. rewrite compute_std_entries by exact F. cbn [rmap bind]. do 2 f_equal. rewrite <- L.
  rewrite (combine_map_seq mean 0%R) at 2. rewrite combine_seqs.
  rewrite <- (map_id (seq 0 (length mean))) at 1. rewrite combine_seqs, map_map. apply map_ext. intros j. reflexivity.
Qed.
Lemma laplace_std_definite v h : (0 < exp (- v) + h)%R -> laplace_std v h = Some (1 / sqrt (exp (- v) + h))%R.
Proof. intros P. unfold laplace_std. destruct (Rle_lt_dec _ _); [lra|reflexivity]. Qed.
Lemma laplace_std_indefinite v h : (exp (- v) + h <= 0)%R -> laplace_std v h = None.
Proof. intros P. unfold laplace_std. destruct (Rle_lt_dec _ _); [reflexivity|lra]. Qed.

Theorem draw_value : forall noise mean hess stored given k, length mean = length hess ->
  let c := match given with Some v => v | None => stored end in
  fits c (length hess) ->
  (definite c hess -> draw noise mean hess stored given k = Ok (Some (member mean hess c (noise k)))) /\
  (~ definite c hess -> draw noise mean hess stored given k = Ok None).
Proof.
  intros noise mean hess stored given k L c F. rewrite draw_entries by assumption. fold c. split.
  - intros D. f_equal. unfold member. rewrite <- all_some_map. f_equal. apply map_ext_in. intros j I. apply in_seq in I.
    rewrite laplace_std_definite by (apply D; lia). cbn [option_map]. f_equal. unfold Rdiv. lra.
  - intros N. f_equal. apply all_some_none.
    assert (E : exists j, j < length hess /\ (exp (- entry c j) + nth j hess 0 <= 0)%R).
    { assert (Q : forall w, (forall j, j < w -> (0 < exp (- entry c j) + nth j hess 0)%R) \/ exists j, j < w /\ (exp (- entry c j) + nth j hess 0 <= 0)%R).
      { induction w as [|w IH]; [left; lia|]. destruct IH as [IH|(j & J & H)]; [|right; exists j; split; [lia|exact H]].
        destruct (Rle_lt_dec (exp (- entry c w) + nth w hess 0)%R 0%R) as [H|H]; [right; exists w; split; [lia|exact H]|].
        left. intros j J. destruct (Nat.eq_dec j w) as [->|]; [exact H|apply IH; lia]. }
      destruct (Q (length hess)) as [H|H]; [now elim N|exact H]. }
    destruct E as (j & J & H). apply in_map_iff. exists j. split; [now rewrite laplace_std_indefinite|]. apply in_seq. lia.
Qed.

Lemma mc_log_average (n : nat) (f : nat -> R) : 1 <= n -> mc_log_prob (map f (seq 0 n)) = ln (raverage n (fun i => exp (f i))).
Proof.
  intros N. rewrite <- (ln_exp (mc_log_prob _)), mc_average by (destruct n; [lia|discriminate]). rewrite map_map, map_length, seq_length. reflexivity.
Qed.
Lemma log_prob_definite {X} label noise (ll : list R -> X -> R) mean hess stored rows c n k : length mean = length hess -> fits c (length hess) -> definite c hess -> 1 <= n ->
  batched_log_prob label noise ll mean hess stored rows c n k
  = Ok (map (fun x => Some (ln (raverage n (fun i => exp (ll (member mean hess c (noise (k ++ [Cut (label n) i]))) x))))) rows).
Proof.
  intros L F D N. unfold batched_log_prob.
  rewrite (mapM_ok_map (draw noise mean hess stored (Some c)) (fun k => Some (member mean hess c (noise k)))).
  2: { intros k' _. now apply (draw_value noise mean hess stored (Some c) k' L F). }
  cbn [rmap bind]. f_equal. apply map_ext. intros x. unfold split. rewrite !map_map. cbn [option_map]. rewrite all_some_map. cbn [option_map]. f_equal.
  now rewrite mc_log_average.
Qed.
Lemma log_prob_indefinite {X} label noise (ll : list R -> X -> R) mean hess stored rows c n k : length mean = length hess -> fits c (length hess) -> ~ definite c hess -> 1 <= n ->
  batched_log_prob label noise ll mean hess stored rows c n k = Ok (map (fun _ => None) rows).
Proof.
  intros L F D N. unfold batched_log_prob.
  rewrite (mapM_ok_map (draw noise mean hess stored (Some c)) (fun k => None)).
  2: { intros k' _. now apply (draw_value noise mean hess stored (Some c) k' L F). }
  cbn [rmap bind]. f_equal. apply map_ext. intros x. rewrite all_some_none; [reflexivity|]. destruct n as [|n]; [lia|]. now left.
Qed.

Lemma reshape_one {A} (l : list A) : reshape_devices 1 l = Ok [l].
Proof.
  destruct (reshape_devices_ok 1 l) as (sh & E & C & N & _); [lia|apply Nat.mod_1_r|]. rewrite E. destruct sh as [|a [|b sh]]; try discriminate N. cbn in C. rewrite app_nil_r in C. now subst.
Qed.
Lemma shard_one c : shard 1 c = Ok [c].
Proof. destruct c; [reflexivity|]. cbn [shard]. now rewrite reshape_one. Qed.
Lemma batch_one {X} label noise (ll : list R -> X -> R) mean hess zero stored n c batch :
  batch_score label noise ll mean hess zero stored n 1 [c] batch = batched_log_prob label noise ll mean hess stored batch c n (zero ++ [Cut (label 1) 0]).
Proof.
  unfold batch_score. rewrite reshape_one. cbn [bind combine split seq map mapM]. unfold child.
  destruct (batched_log_prob _ _ _ _ _ _ _ _ _ _) as [r|e]; cbn [bind rmap]; [|reflexivity]. unfold unshard. cbn [List.concat]. now rewrite app_nil_r.
Qed.
Lemma rsum_rtotal l : rsum l = rtotal l. Proof. reflexivity. Qed.

Definition tuned_objective {X} label noise (ll : list R -> X -> R) mean hess zero n rows c : R :=
  objective ll (fun i => member mean hess c (noise (tuning_key label zero n i))) n rows.

Lemma np_concat_ne {A} (l : list (list A)) : l <> [] -> np_concatenate l = Ok (concat l).
Proof. destruct l; [congruence|reflexivity]. Qed.
Lemma score_definite {X} label noise (ll : list R -> X -> R) mean hess zero stored loader n c : length mean = length hess -> fits c (length hess) -> definite c hess ->
  1 <= n -> loader <> [] ->
  neg_log_prob label noise ll mean hess zero stored loader n 1 [c] = Ok (Some (- tuned_objective label noise ll mean hess zero n (concat loader) c)%R).
Proof.
  intros L F D N NE. unfold neg_log_prob.
  rewrite (mapM_ok_map _ (fun b => map (fun x => Some (ln (raverage n (fun i => exp (ll (member mean hess c (noise ((zero ++ [Cut (label 1) 0]) ++ [Cut (label n) i]))) x))))) b)).
  2: { intros b _. rewrite batch_one. now apply log_prob_definite. }
  cbn [bind]. rewrite np_concat_ne by (destruct loader; [congruence|discriminate]). cbn [rmap bind]. rewrite <- concat_map, all_some_map. cbn [option_map]. do 3 f_equal.
  unfold tuned_objective, objective. rewrite rsum_rtotal. f_equal. apply map_ext. intros x. f_equal.
  apply raverage_ext. intros i _. unfold tuning_key. now rewrite <- app_assoc.
Qed.
Lemma score_indefinite {X} label noise (ll : list R -> X -> R) mean hess zero stored loader n c : length mean = length hess -> fits c (length hess) -> ~ definite c hess ->
  1 <= n -> concat loader <> [] ->
  neg_log_prob label noise ll mean hess zero stored loader n 1 [c] = Ok None.
Proof.
  intros L F D N NE. unfold neg_log_prob. rewrite (mapM_ok_map _ (map (fun _ => None))).
  2: { intros b _. rewrite batch_one. now apply log_prob_indefinite. }
  cbn [bind]. rewrite np_concat_ne by (destruct loader; [now elim NE|discriminate]). cbn [rmap bind]. rewrite <- concat_map, all_some_none; [reflexivity|].
  destruct (concat loader); [congruence|now left].
Qed.

Section Search.
Context {X : Type}.
Variables (label : nat -> nat) (noise : key -> nat -> R) (ll : list R -> X -> R) (mean hess : list R) (zero : key) (stored : log_var) (loader : list (list X)) (n : nat).
Variable score : log_var -> option R.
Let pairs := map (fun c : log_var => (c, [c])).
Let scored l := forall c, In c l -> neg_log_prob label noise ll mean hess zero stored loader n 1 [c] = Ok (score c).

Lemma search_nan l c0 : scored l -> search label noise ll mean hess zero stored loader n 1 (Some (c0, None)) (pairs l) = Ok (Some (c0, None)).
Proof.
  induction l as [|c l IH]; intros S; [reflexivity|]. cbn [pairs map search]. rewrite S by now left. cbn [bind].
  replace (better (score c) None) with false by (destruct (score c); reflexivity). apply IH. intros c' I. apply S. now right.
Qed.
Lemma search_best l : forall c0 s0, scored l ->
  exists c s, search label noise ll mean hess zero stored loader n 1 (Some (c0, Some s0)) (pairs l) = Ok (Some (c, Some s)) /\
    (c = c0 /\ s = s0 /\ (forall c' s', In c' l -> score c' = Some s' -> (s0 <= s')%R) \/
     exists before after, l = before ++ c :: after /\ score c = Some s /\ (s < s0)%R /\
       (forall c' s', In c' before -> score c' = Some s' -> (s < s')%R) /\ (forall c' s', In c' after -> score c' = Some s' -> (s <= s')%R)).
Proof.
  induction l as [|c1 l IH]; intros c0 s0 S.
  - exists c0, s0. split; [reflexivity|]. left. repeat split. intros c' s' [].
  - cbn [pairs map search]. rewrite S by now left. cbn [bind].
    assert (S' : scored l) by (intros c' I; apply S; now right).
    destruct (score c1) as [s1|] eqn:E1; cbn [better].
    + destruct (Rlt_dec s1 s0) as [H|H].
      * destruct (IH c1 s1 S') as (c & s & E & [(-> & -> & B)|(b & a & -> & B1 & B2 & B3 & B4)]); exists c, s || exists c1, s1; (split; [exact E|right]).
        -- exists [], l. repeat split; [exact E1|exact H|intros ? ? []|exact B].
        -- exists (c1 :: b), a. repeat split; [exact B1|lra| |exact B4]. intros c' s' [<-|I]; [rewrite E1; intros J; injection J as <-; exact B2|now apply B3].
      * destruct (IH c0 s0 S') as (c & s & E & [(-> & -> & B)|(b & a & -> & B1 & B2 & B3 & B4)]).
        -- exists c0, s0. split; [exact E|left]. repeat split. intros c' s' [<-|I]; [rewrite E1; intros J; injection J as <-; lra|now apply B].
        -- exists c, s. split; [exact E|right]. exists (c1 :: b), a. repeat split; [exact B1|exact B2| |exact B4]. intros c' s' [<-|I]; [rewrite E1; intros J; injection J as <-; lra|now apply B3].
    + destruct (IH c0 s0 S') as (c & s & E & [(-> & -> & B)|(b & a & -> & B1 & B2 & B3 & B4)]).
      * exists c0, s0. split; [exact E|left]. repeat split. intros c' s' [<-|I]; [rewrite E1; discriminate|now apply B].
      * exists c, s. split; [exact E|right]. exists (c1 :: b), a. repeat split; [exact B1|exact B2| |exact B4]. intros c' s' [<-|I]; [rewrite E1; discriminate|now apply B3].
Qed.
(** the first candidate with a score *)
Lemma search_first c l s0 : scored (c :: l) -> score c = Some s0 ->
  exists c' s before after, search label noise ll mean hess zero stored loader n 1 None (pairs (c :: l)) = Ok (Some (c', Some s)) /\
    c :: l = before ++ c' :: after /\ score c' = Some s /\
    (forall e t, In e before -> score e = Some t -> (s < t)%R) /\ (forall e t, In e after -> score e = Some t -> (s <= t)%R).
Proof.
  intros S E. cbn [pairs map search]. rewrite S by now left. cbn [bind]. rewrite E.
  destruct (search_best l c s0) as (c' & s & H & [(-> & -> & B)|(b & a & -> & B1 & B2 & B3 & B4)]); [intros e I; apply S; now right| |].
  - exists c, s0, [], l. split; [exact H|]. split; [reflexivity|]. split; [exact E|]. split; [intros ? ? []|exact B].
  - exists c', s, (c :: b), a. split; [exact H|]. split; [reflexivity|]. split; [exact B1|]. split; [|exact B4].
    intros e t [<-|I]; [rewrite E; intros J; injection J as <-; exact B2|now apply B3].
Qed.
End Search.
