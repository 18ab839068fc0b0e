(** What tuning returns, stated by the objective. *)
From Coq Require Import List Arith Bool Reals Lia Lra.
From Verif Require Import Lib TempModel TempSpec TempProofs3 LoaderModel LoaderProofs LoaderProofs2 PredSpec PredProofs5 LapModel LapProofs2 DrawModel TuneModel TuneSpec TuneProofs.
Import ListNotations.
Local Open Scope R_scope.
Local Open Scope nat_scope.

Lemma definite_dec c hess : {definite c hess} + {~ definite c hess}.
Proof.
  unfold definite. generalize (length hess) as w. induction w as [|w IH]; [left; lia|].
  destruct IH as [IH|IH]; [|right; intros H; apply IH; intros j J; apply H; lia].
  destruct (Rlt_dec 0 (exp (- entry c w) + nth w hess 0)%R) as [H|H]; [left|right; intros H'; apply H, H'; lia].
  intros j J. destruct (Nat.eq_dec j w) as [->|]; [exact H|apply IH; lia].
Qed.
Theorem nonnegative_definite : forall c hess, Forall (fun h => (0 <= h)%R) hess -> definite c hess.
Proof.
  intros c hess H j J. rewrite Forall_forall in H. assert (P := exp_pos (- entry c j)). assert (N : (0 <= nth j hess 0)%R) by (apply H, nth_In, J). lra.
Qed.

Lemma mapM_shards (l : list log_var) : mapM (fun c => rmap (pair c) (shard 1 c)) l = Ok (map (fun c => (c, [c])) l).
Proof. apply mapM_ok_map. intros c _. now rewrite shard_one. Qed.
Lemma grid_eq lo hi g : rlinspace lo hi g = map (grid_point lo hi g) (seq 0 g).
Proof. reflexivity. Qed.
Lemma grid_first lo hi g : grid_point lo hi g 0 = lo.
Proof. unfold grid_point. cbn [INR]. lra. Qed.

Section Tuned.
Context {X : Type}.
Variables (label : nat -> nat) (noise : key -> nat -> R) (ll : list R -> X -> R) (mean hess : list R) (zero : key) (loader : list (list X)) (n : nat).
Hypotheses (L : length mean = length hess) (N : 1 <= n) (NE : concat loader <> []).
Let goal c := tuned_objective label noise ll mean hess zero n (concat loader) c.
Let score c := if definite_dec c hess then Some (- goal c)%R else None.

Lemma scores stored c : fits c (length hess) -> neg_log_prob label noise ll mean hess zero stored loader n 1 [c] = Ok (score c).
Proof.
  intros F. unfold score. destruct (definite_dec c hess) as [D|D]; [apply score_definite|now apply score_indefinite]; try assumption. intros ->. now apply NE.
Qed.
Lemma tune_candidates prior lo hi g c0 rest : fits prior (length hess) -> map Scalar (map (grid_point lo hi g) (seq 0 g)) ++ [prior] = c0 :: rest -> definite c0 hess ->
  exists c before after, tune label noise ll mean hess zero prior loader n lo hi g true 1 = to_scalar c /\
    map Scalar (map (grid_point lo hi g) (seq 0 g)) ++ [prior] = before ++ c :: after /\ definite c hess /\
    (forall e, In e before -> definite e hess -> (goal e < goal c)%R) /\ (forall e, In e after -> definite e hess -> (goal e <= goal c)%R).
Proof.
  intros F E D. unfold tune. rewrite grid_eq, E, mapM_shards. cbn [bind].
  destruct (search_first label noise ll mean hess zero prior loader n score c0 rest (- goal c0)%R) as (c & s & b & a & S & B & C1 & C2 & C3).
  - intros c I. apply scores. rewrite <- E in I. apply in_app_iff in I. destruct I as [I|[<-|[]]]; [|exact F]. apply in_map_iff in I. destruct I as (v & <- & _). exact I.
  - unfold score. now destruct (definite_dec c0 hess).
  - exists c, b, a. rewrite S. cbn [bind]. split; [reflexivity|]. split; [exact B|]. unfold score in C1. destruct (definite_dec c hess) as [Dc|Dc]; [|discriminate]. injection C1 as <-.
    assert (SD : forall e, definite e hess -> score e = Some (- goal e)%R) by (intros e De; unfold score; now destruct (definite_dec e hess)).
    split; [exact Dc|]. split; intros e I De; [specialize (C2 e _ I (SD e De))|specialize (C3 e _ I (SD e De))]; lra.
Qed.
Lemma tune_nan prior lo hi g : fits prior (length hess) -> 1 <= g -> ~ definite (Scalar lo) hess -> tune label noise ll mean hess zero prior loader n lo hi g true 1 = Ok lo.
Proof.
  intros F G D. unfold tune. rewrite grid_eq. destruct g as [|g]; [lia|]. cbn [seq map app]. rewrite grid_first.
  change (Scalar lo :: ?l) with ([Scalar lo] ++ l). set (l := map Scalar (map (grid_point lo hi (S g)) (seq 1 g)) ++ [prior]).
  change (Scalar lo :: l) with ([Scalar lo] ++ l) || idtac.
  rewrite mapM_shards. cbn [app map bind search]. rewrite scores by exact I. unfold score at 1. destruct (definite_dec (Scalar lo) hess); [contradiction|]. cbn [bind].
  rewrite (search_nan label noise ll mean hess zero prior loader n score).
  - reflexivity.
  - intros c I. apply scores. apply in_app_iff in I. destruct I as [I|[<-|[]]]; [|exact F]. apply in_map_iff in I. now destruct I as (v & <- & _).
Qed.
End Tuned.

Lemma split_scalars (l before after : list _) (p : R) c : map Scalar l ++ [Scalar p] = before ++ c :: after ->
  exists v b a, c = Scalar v /\ before = map Scalar b /\ after = map Scalar a /\ l ++ [p] = b ++ v :: a.
Proof.
  intros E. change [Scalar p] with (map Scalar [p]) in E. rewrite <- map_app in E. revert before E. generalize (l ++ [p]) as q. induction q as [|x q IH]; intros before E; [destruct before; discriminate|].
  destruct before as [|y before]; cbn [map app] in E; injection E as <- E.
  - exists x, [], q. now subst.
  - destruct (IH before E) as (v & b & a & -> & -> & -> & ->). now exists v, (x :: b), a.
Qed.

Theorem tuning_chooses : forall X label noise (ll : list R -> X -> R) mean hess zero p loader n lo hi g,
  length mean = length hess -> 1 <= n -> concat loader <> [] -> definite (Scalar (match g with 0 => p | _ => lo end)) hess ->
  let goal := fun v => objective ll (fun i => member mean hess (Scalar v) (noise (tuning_key label zero n i))) n (concat loader) in
  exists v before after, tune label noise ll mean hess zero (Scalar p) loader n lo hi g true 1 = Ok v /\
    map (grid_point lo hi g) (seq 0 g) ++ [p] = before ++ v :: after /\ definite (Scalar v) hess /\
    (forall v', In v' before -> definite (Scalar v') hess -> (goal v' < goal v)%R) /\ (forall v', In v' after -> definite (Scalar v') hess -> (goal v' <= goal v)%R).
Proof.
  intros X label noise ll mean hess zero p loader n lo hi g L N NE D goal.
  assert (E : exists rest, map Scalar (map (grid_point lo hi g) (seq 0 g)) ++ [Scalar p] = Scalar (match g with 0 => p | _ => lo end) :: rest).
  { destruct g as [|g]; [exists []; reflexivity|]. cbn [seq map app]. rewrite grid_first. eexists. reflexivity. }
  destruct E as (rest & E).
  destruct (tune_candidates label noise ll mean hess zero loader n L N NE (Scalar p) lo hi g _ rest I E D) as (c & b & a & T & B & Dc & B1 & B2).
  destruct (split_scalars _ _ _ _ _ B) as (v & b' & a' & -> & -> & -> & B'). exists v, b', a'. split; [exact T|]. split; [exact B'|]. split; [exact Dc|].
  split; intros v' I; [apply (B1 (Scalar v'))|apply (B2 (Scalar v'))]; now apply in_map.
Qed.
(** with a log-variance per parameter the prior itself cannot be chosen *)
Theorem tuning_vector : forall X label noise (ll : list R -> X -> R) mean hess zero vs loader n lo hi g,
  length mean = length hess -> length vs = length hess -> 2 <= length vs -> 1 <= n -> concat loader <> [] -> 1 <= g -> definite (Scalar lo) hess ->
  let goal := fun c => objective ll (fun i => member mean hess c (noise (tuning_key label zero n i))) n (concat loader) in
  let chosen := tune label noise ll mean hess zero (Vector vs) loader n lo hi g true 1 in
  (chosen = Err TypeError /\ definite (Vector vs) hess /\ forall i, i < g -> definite (Scalar (grid_point lo hi g i)) hess -> (goal (Scalar (grid_point lo hi g i)) < goal (Vector vs))%R) \/
  (exists i, i < g /\ chosen = Ok (grid_point lo hi g i) /\ (definite (Vector vs) hess -> (goal (Vector vs) <= goal (Scalar (grid_point lo hi g i)))%R) /\
     forall j, j < g -> definite (Scalar (grid_point lo hi g j)) hess -> (goal (Scalar (grid_point lo hi g j)) <= goal (Scalar (grid_point lo hi g i)))%R).
Proof.
  intros X label noise ll mean hess zero vs loader n lo hi g L V V2 N NE G D goal chosen.
  assert (E : exists rest, map Scalar (map (grid_point lo hi g) (seq 0 g)) ++ [Vector vs] = Scalar lo :: rest).
  { destruct g as [|g]; [lia|]. cbn [seq map app]. rewrite grid_first. eexists. reflexivity. }
  destruct E as (rest & E).
  destruct (tune_candidates label noise ll mean hess zero loader n L N NE (Vector vs) lo hi g _ rest V E D) as (c & b & a & T & B & Dc & B1 & B2).
  fold chosen in T.
  assert (GI : forall i, i < g -> In (Scalar (grid_point lo hi g i)) (map Scalar (map (grid_point lo hi g) (seq 0 g)))).
  { intros i I. apply in_map, in_map, in_seq. lia. }
  destruct a as [|y a _] using rev_ind.
  - apply app_inj_tail in B. destruct B as [B C]; subst c. left. rewrite T. split; [destruct vs as [|x [|y vs]]; cbn in V2; try lia; reflexivity|]. split; [exact Dc|].
    intros i I. apply B1. rewrite <- B. now apply GI.
  - right. rewrite app_comm_cons, app_assoc in B. apply app_inj_tail in B. destruct B as [B <-].
    assert (I : In c (map Scalar (map (grid_point lo hi g) (seq 0 g)))) by (rewrite B; apply in_or_app; right; now left).
    apply in_map_iff in I. destruct I as (v & <- & I). apply in_map_iff in I. destruct I as (i & <- & I). apply in_seq in I.
    exists i. split; [lia|]. split; [exact T|]. split.
    + apply (B2 (Vector vs)). apply in_or_app. right. now left.
    + intros j J Dj. specialize (GI j J). rewrite B in GI. apply in_app_iff in GI. destruct GI as [H|[H|H]].
      * left. now apply B1.
      * right. now rewrite H.
      * apply (B2 (Scalar (grid_point lo hi g j))); [apply in_or_app; now left|exact Dj].
Qed.
Theorem tuning_nan : forall X label noise (ll : list R -> X -> R) mean hess zero prior loader n lo hi g,
  length mean = length hess -> fits prior (length hess) -> 1 <= n -> concat loader <> [] -> 1 <= g -> ~ definite (Scalar lo) hess ->
  tune label noise ll mean hess zero prior loader n lo hi g true 1 = Ok lo.
Proof. intros X label noise ll mean hess zero prior loader n lo hi g L F N NE G D. now apply tune_nan. Qed.
Theorem tuning_devices : forall X label noise (ll : list R -> X -> R) mean hess zero prior loader n lo hi g d,
  d <> 1 -> 1 <= g \/ (exists p, prior = Scalar p) -> tune label noise ll mean hess zero prior loader n lo hi g true d = Err TypeError.
Proof.
  intros X label noise ll mean hess zero prior loader n lo hi g d D G. unfold tune, rlinspace.
  assert (S : forall v, shard d (Scalar v) = Err TypeError) by (intros v; cbn [shard]; apply Nat.eqb_neq in D; now rewrite D).
  destruct g as [|g].
  - destruct G as [G|(p & ->)]; [lia|]. cbn [seq map app mapM]. now rewrite S.
  - cbn [seq map app mapM]. now rewrite S.
Qed.
Theorem tuning_local : forall X label noise (ll : list R -> X -> R) mean hess zero prior loader n lo hi g d,
  tune label noise ll mean hess zero prior loader n lo hi g false d = Err (match loader with [] => ValueError | _ => UnboundLocalErr end).
Proof. intros. now destruct loader. Qed.

Theorem fit_tuned : forall X label noise (ll : list R -> X -> R) mean hess zero p loader,
  length mean = length hess -> concat loader <> [] -> definite (Scalar (-3)) hess ->
  let goal := fun v => objective ll (fun i => member mean hess (Scalar v) (noise (tuning_key label zero 5 i))) 5 (concat loader) in
  exists v, fit_end label noise ll mean hess zero (Scalar p) (Some loader) true None 1 = (Scalar v, Ok tt) /\
    (v = p \/ exists i, i < 20 /\ v = (-3 + INR i * (6 / 19))%R) /\
    (definite (Scalar p) hess -> (goal p <= goal v)%R) /\
    forall i, i < 20 -> definite (Scalar (-3 + INR i * (6 / 19))) hess -> (goal (-3 + INR i * (6 / 19))%R <= goal v)%R.
Proof.
  intros X label noise ll mean hess zero p loader L NE D goal.
  destruct (tuning_chooses X label noise ll mean hess zero p loader 5 (-3) 3 20 L ltac:(lia) NE D) as (v & b & a & T & B & Dv & B1 & B2).
  
  change (forall v', In v' b -> definite (Scalar v') hess -> (goal v' < goal v)%R) in B1. change (forall v', In v' a -> definite (Scalar v') hess -> (goal v' <= goal v)%R) in B2. clearbody goal. exists v. unfold fit_end. rewrite T. split; [reflexivity|].
  assert (GP : forall i, grid_point (-3) 3 20 i = (-3 + INR i * (6 / 19))%R) by (intros i; unfold grid_point; replace (INR (20 - 1)) with 19%R by (cbn [Nat.sub]; rewrite INR_IZR_INZ; reflexivity); lra).
  assert (AL : forall v', In v' (map (grid_point (-3) 3 20) (seq 0 20) ++ [p]) -> definite (Scalar v') hess -> (goal v' <= goal v)%R).
  { intros v' I Dv'. rewrite B in I. apply in_app_iff in I. destruct I as [I|[<-|I]]; [left; exact (B1 _ I Dv')|apply Rle_refl|exact (B2 _ I Dv')]. }
  split; [|split].
  - assert (I : In v (map (grid_point (-3) 3 20) (seq 0 20) ++ [p])) by (rewrite B; apply in_or_app; right; now left).
    apply in_app_iff in I. destruct I as [I|[<-|[]]]; [right|now left]. apply in_map_iff in I. destruct I as (i & <- & I). apply in_seq in I. exists i. split; [lia|apply GP].
  - apply AL. apply in_or_app. right. now left.
  - intros i I. rewrite <- GP. apply AL. apply in_or_app. left. apply in_map, in_seq. lia.
Qed.
Theorem fit_untuned : forall X label noise (ll : list R -> X -> R) mean hess zero prior val tuning devices d,
  (val = None \/ tuning = false -> fit_end label noise ll mean hess zero prior val tuning devices d = (prior, Ok tt)) /\
  (forall loader m, val = Some loader -> loader <> [] -> tuning = true -> devices = Some m -> fit_end label noise ll mean hess zero prior val tuning devices d = (prior, Err UnboundLocalErr)) /\
  (forall loader, val = Some loader -> tuning = true -> devices = None -> d <> 1 -> fit_end label noise ll mean hess zero prior val tuning devices d = (prior, Err TypeError)).
Proof.
  intros X label noise ll mean hess zero prior val tuning devices d. unfold fit_end. split; [|split].
  - intros [->| ->]; [reflexivity|]. now destruct val.
  - intros loader m -> NE -> ->. rewrite tuning_local. now destruct loader.
  - intros loader -> -> -> D. rewrite tuning_devices; [reflexivity|exact D|left; lia].
Qed.
