(** Proofs for NoiseProps: whole fits. *)
From Coq Require Import List Arith Bool Lia.
From Verif Require Import Lib DrawModel DrawSpec DrawProofs McmcModel NoiseModel NoiseSpec NoiseProofs.
Import ListNotations.
Local Open Scope nat_scope.

(** requests after which anything may follow *)
Definition sealed (r : request) : Prop := match r with Call (Variances _) | Sampler _ _ => False | _ => True end.
Lemma sealed_compatible label r r' : sealed r -> compatible label r r'.
Proof. destruct r as [c|n|a s|s v| |]; cbn; try contradiction; auto. destruct c; cbn; auto; contradiction. Qed.
Definition closed (label : nat -> nat) (rs : list request) : Prop := Forall (clean_request label) rs /\ Forall sealed rs.
Lemma adjacent_nil {A} (R : A -> A -> Prop) : adjacent R [].
Proof. intros l1 a b l2 E. destruct l1; discriminate. Qed.
Lemma adjacent_cons {A} (R : A -> A -> Prop) a l : match l with [] => True | b :: _ => R a b end -> adjacent R l -> adjacent R (a :: l).
Proof.
  intros H Q l1 x y l2 E. destruct l1 as [|z l1]; cbn [app] in E; inversion E; subst; [exact H|]. apply (Q l1 x y l2). reflexivity.
Qed.
Lemma closed_app label rs cs : closed label rs -> proper label cs -> proper label (rs ++ cs).
Proof.
  intros [C S] [C' A]. split; [apply Forall_app; split; assumption|].
  clear C. induction S as [|r rs Sr S IH]; cbn [app]; [exact A|]. apply adjacent_cons; [|exact IH].
  destruct (rs ++ cs); [exact Logic.I|]. now apply sealed_compatible.
Qed.
Lemma closed_nil label : closed label [].
Proof. split; constructor. Qed.
Lemma closed_cat label a b : closed label a -> closed label b -> closed label (a ++ b).
Proof. intros [H1 H2] [H3 H4]. split; apply Forall_app; auto. Qed.
Lemma closed_init_joint label m : closed label (init_joint m).
Proof. split; repeat constructor. Qed.
Lemma closed_fit_map label m b s : closed label (fit_map m b s).
Proof. unfold fit_map. apply closed_cat; [destruct b; [apply closed_nil|apply closed_init_joint]|]. split; repeat constructor. Qed.
Lemma closed_cons label r rs : clean_request label r -> sealed r -> closed label rs -> closed label (r :: rs).
Proof. intros A B [C D]. split; constructor; auto. Qed.
Lemma closed_preliminary label m s : closed label (preliminary_map m s).
Proof. apply closed_cons; [exact Logic.I|exact Logic.I|apply closed_fit_map]. Qed.
Lemma closed_first label m o f : closed label (run_map_first m o f).
Proof. destruct o as [|s|]; cbn; try apply closed_nil. destruct f; [apply closed_preliminary|apply closed_nil]. Qed.
Lemma closed_repeat label rs n : closed label rs -> closed label (concat (repeat rs n)).
Proof. intros H. induction n as [|n IH]; cbn [repeat concat]; [apply closed_nil|now apply closed_cat]. Qed.
(** after a fit, anything may follow *)
Lemma fit_program_app label rs cs : fit_program label rs -> proper label cs -> proper label (rs ++ cs).
Proof.
  intros H Pc. destruct H as [m b s|m o s rs E|m o rs E|m o f size s|m o f leaves s L1 L2|m o s val|n val s L].
  - now apply closed_app; [apply closed_fit_map|].
  - apply closed_app; [|assumption]. destruct o as [|s0|]; cbn in E; inversion E; subst; [apply closed_cons; cbn; auto using closed_nil|].
    apply (closed_cat label (preliminary_map m s0) [Call (Training s)]); [apply closed_preliminary|]. split; repeat constructor.
  - apply closed_app; [|assumption]. destruct o as [|s0|]; cbn in E; inversion E; subst; [apply closed_nil|apply (closed_preliminary label m s0)].
  - apply closed_app; [|assumption]. unfold fit_ensemble. apply closed_cat; [apply closed_first|apply closed_repeat, closed_fit_map].
  - unfold fit_sampler. rewrite <- app_assoc. apply closed_app; [apply closed_first|]. cbn [app].
    destruct (closed_app label (fit_map m (is_available o) s) cs (closed_fit_map label m _ s) Pc) as [C A].
    split; [constructor; auto|]. apply adjacent_cons; [|exact A].
    destruct o as [|s0|]; cbn [fit_map is_available init_joint app compatible]; auto; apply L2; discriminate.
  - apply closed_app; [|assumption]. unfold fit_advi. apply closed_cat.
    + destruct o; [apply closed_nil|apply closed_preliminary|apply closed_init_joint].
    + split; repeat constructor.
  - apply closed_app; [|assumption]. unfold calibrate. destruct val; split; repeat constructor; assumption.
Qed.
Theorem fits_independent : forall label g fits cs, Forall (fit_program label) fits -> proper label cs ->
  independent (session label g (concat fits ++ cs)).
Proof.
  intros label g fits cs F Pc. apply session_independent. induction F as [|rs fits H _ IH]; cbn [concat app]; [exact Pc|].
  rewrite <- app_assoc. now apply fit_program_app.
Qed.

(** members of an ensemble: their initial parameters and training keys *)
Lemma session_app label rs1 rs2 : forall g, session label g (rs1 ++ rs2) =
  session label g rs1 ++ session label (g ++ repeat (Cut (label 2) 0) (length rs1)) rs2.
Proof.
  induction rs1 as [|r rs1 IH]; intros g; cbn [app session length repeat]; [now rewrite app_nil_r|]. rewrite rng_get_eq, IH, <- !app_assoc. reflexivity.
Qed.
Lemma member_length m b s : length (fit_map m b s) = if b then 1 else 3.
Proof. now destruct b. Qed.
Theorem ensemble_members : forall label g m freeze size s,
  session label g (fit_ensemble m Nothing freeze size s) =
  flat_map (fun i => session label (g ++ repeat (Cut (label 2) 0) (3 * i)) (fit_map m false s)) (seq 0 size).
Proof.
  intros label g m freeze size s. unfold fit_ensemble. cbn [run_map_first is_available app].
  revert g. induction size as [|n IH]; intros g; [reflexivity|]. cbn [repeat concat]. rewrite session_app, IH. cbn [seq flat_map].
  rewrite Nat.mul_0_r. cbn [repeat]. rewrite app_nil_r. f_equal. rewrite <- seq_shift, flat_map_concat_map, flat_map_concat_map, map_map. f_equal.
  apply map_ext. intros i. do 1 f_equal. rewrite member_length, <- app_assoc, <- repeat_app. do 2 f_equal. lia.
Qed.
Theorem map_fit_keys : forall label g m s,
  session label g (fit_map m false s) =
  (let k := g ++ [Cut (label 2) 0] in map (fun i => k ++ [Cut (label (init_parts m)) i]) (seq 1 (init_parts m - 1)))
  ++ (let k := g ++ [Cut (label 2) 0; Cut (label 2) 0] in map (fun i => k ++ [Cut (label 3) i]) (seq 1 2))
  ++ (let k := g ++ [Cut (label 2) 0; Cut (label 2) 0; Cut (label 2) 0] in map (fun i => k ++ [Fold i]) (seq 0 s)).
Proof.
  intros label g m s. unfold fit_map, init_joint. cbn [app session]. rewrite !rng_get_eq. cbn [request_keys]. rewrite app_nil_r, <- !app_assoc. cbn [app drawn].
  f_equal. now destruct m.
Qed.

(** ---- what breaks it ---- *)
Lemma in_two (l1 l2 : list key) a : In a l1 -> In a l2 -> reused a (l1 ++ l2).
Proof.
  intros I J. apply List.in_split in I as (p & q & ->). apply List.in_split in J as (p' & q' & ->). exists p, (q ++ p'), q'. now rewrite <- !app_assoc.
Qed.
Lemma reused_more a l l1 l2 : reused a l -> reused a (l1 ++ l ++ l2).
Proof. intros (p & q & r & ->). exists (l1 ++ p), q, (r ++ l2). rewrite <- !app_assoc. cbn [app]. now rewrite <- !app_assoc. Qed.
Lemma reused_not_independent a ks : reused a ks -> ~ independent ks.
Proof. intros (p & q & r & E). now apply independent_not_dup with (1 := E). Qed.
Theorem sampler_reuse : forall label g m freeze leaves s, 2 <= leaves -> 1 <= s -> label leaves = label (init_parts m) ->
  let k := g ++ [Cut (label 2) 0] in
  let init := k ++ [Cut (label 2) 0] in
  reused (init ++ [Cut (label (init_parts m)) 1]) (session label g (fit_sampler m Nothing freeze leaves s))
  /\ noise_key label leaves k 0 1 = init ++ [Cut (label (init_parts m)) 1].
Proof.
  intros label g m freeze leaves s H S E k init.
  assert (X : noise_key label leaves k 0 1 = init ++ [Cut (label (init_parts m)) 1]).
  { unfold noise_key, init. rewrite E, <- app_assoc. reflexivity. }
  split; [|exact X]. unfold fit_sampler. cbn [run_map_first is_available app fit_map init_joint session]. rewrite !rng_get_eq. fold k. fold init. cbn [request_keys].
  rewrite app_assoc. apply (reused_more _ _ []). apply in_two.
  - apply in_run_noise. exists 0, 1. repeat split; try lia. symmetry. exact X.
  - unfold init_keys. destruct m; cbn; auto.
Qed.
Lemma not_independent_in ks a l1 b l2 : ks = l1 ++ l2 -> In a l1 -> In b l2 -> derived a b -> ~ independent ks.
Proof. intros -> I J D Ind. destruct (independent_apart _ _ a b Ind I J) as [N _]. now apply N. Qed.
Lemma request_prefix label k r a : In a (request_keys label k r) -> derived k a.
Proof.
  destruct r as [c|n|leaves s|s val| |]; cbn [request_keys]; intros I.
  - apply drawn_prefix in I as (m & t & ->). now exists (m :: t).
  - apply in_init_keys in I as (i & _ & ->). now exists [Cut (label n) i].
  - apply in_run_noise in I as (t & i & _ & _ & ->). unfold noise_key. now exists (repeat (Cut (label 2) 1) t ++ [Cut (label 2) 0; Cut (label leaves) i]).
  - apply in_app_or in I as [I|I].
    + apply in_flat_map in I as (k' & I & J). apply in_map_iff in I as (i & <- & _). rewrite flow_keys_eq in J. unfold fold_in in J.
      destruct J as [<-|[<-|[]]]; rewrite <- app_assoc; eexists; reflexivity.
    + destruct val; [|destruct I]. rewrite flow_keys_eq in I. destruct I as [<-|[]]. eexists; reflexivity.
  - destruct I.
  - destruct I as [<-|[]]. apply derived_refl.
Qed.
Lemma request_nonempty label k r : draws_request r -> exists a, In a (request_keys label k r).
Proof.
  destruct r as [c|n|leaves s|s val| |]; cbn [draws_request request_keys]; intros D.
  - destruct (nonempty_drawn label k c D) as (a & l & ->). exists a. now left.
  - destruct n as [|[|n]]; try lia. eexists. left. reflexivity.
  - exists (noise_key label leaves k 0 0). apply in_run_noise. exists 0, 0. repeat split; lia.
  - rewrite flow_keys_eq. destruct D as [D| ->].
    + destruct s as [|s]; [lia|]. eexists. left. reflexivity.
    + exists (k ++ [Cut (label 2) 1; Cut (label 2) 1]). apply in_or_app. right. now left.
  - destruct D.
  - exists k. now left.
Qed.
Theorem sampler_like_generator : forall label g leaves s r r' rs, 1 <= leaves -> 1 <= s -> label leaves = label 2 -> draws_request r' ->
  ~ independent (session label g (Sampler leaves s :: r :: r' :: rs)).
Proof.
  intros label g leaves s r r' rs H S E D. cbn [session]. rewrite !rng_get_eq. set (k := g ++ [Cut (label 2) 0]).
  destruct (request_nonempty label ((k ++ [Cut (label 2) 0]) ++ [Cut (label 2) 0]) r' D) as (b & B).
  apply not_independent_in with (1 := eq_refl) (a := noise_key label leaves k 0 0) (b := b).
  - apply in_run_noise. exists 0, 0. repeat split; lia.
  - apply in_or_app. right. apply in_or_app. now left.
  - apply request_prefix in B. unfold noise_key. cbn [repeat app]. rewrite E. now rewrite <- app_assoc in B.
Qed.
Theorem direct_then_any : forall label g r rs, draws_request r -> ~ independent (session label g (Direct :: r :: rs)).
Proof.
  intros label g r rs D. cbn [session]. rewrite !rng_get_eq. set (k := g ++ [Cut (label 2) 0]). cbn [request_keys].
  destruct (request_nonempty label (k ++ [Cut (label 2) 0]) r D) as (b & B).
  apply not_independent_in with (1 := eq_refl) (a := k) (b := b).
  - now left.
  - apply in_or_app. now left.
  - apply request_prefix in B. apply derived_trans with (2 := B). eexists; reflexivity.
Qed.
(** validation of flows uses one key throughout *)
Theorem flow_validation : forall label g s rs, exists l,
  session label g (FlowTraining s true :: rs) = flat_map (fun i => let k := g ++ [Cut (label 2) 0; Fold i] in [k ++ [Cut (label 2) 0]; k ++ [Cut (label 2) 1; Cut (label 2) 1]]) (seq 0 s)
     ++ [g ++ [Cut (label 2) 0; Cut (label 2) 1; Cut (label 2) 1]] ++ l.
Proof.
  intros label g s rs. cbn [session]. rewrite rng_get_eq. cbn [request_keys]. rewrite flow_keys_eq. cbn [tl]. eexists. rewrite <- !app_assoc. f_equal.
  rewrite flat_map_concat_map, flat_map_concat_map, map_map. f_equal. apply map_ext. intros i. rewrite flow_keys_eq. unfold fold_in. now rewrite <- !app_assoc.
Qed.
Theorem request_keys_independent : forall label k r, independent (request_keys label k r).
Proof. exact request_independent. Qed.
(** draws from a posterior with the keys of predictive calls, whatever is drawn elsewhere *)
Theorem posterior_draws : forall label p g (to_posterior : key -> bool) rs, proper label rs ->
  independent (flat_map (fun k => if to_posterior k then sample_keys label p k else [k]) (session label g rs)).
Proof.
  intros label p g b rs H. apply refine_independent; [|now apply session_independent]. intros k. destruct (b k); [apply sample_keys_refine|].
  split; repeat constructor. apply derived_refl.
Qed.
(** how often each fit uses the generator *)
Theorem generator_uses : forall m o (freeze : bool) leaves size s n (val : bool),
  let first := match o with AfterMap _ => if freeze then 4 else 0 | _ => 0 end in
  let each := match o with Available => 1 | _ => 3 end in
  length (fit_ensemble m o freeze size s) = first + size * each
  /\ length (fit_sampler m o freeze leaves s) = first + 1 + each
  /\ length (fit_advi m o s val) = match o with Available => 2 | AfterMap _ => 6 | Nothing => 4 end
  /\ length (calibrate n val s) = (if val then 3 else 2)
  /\ rmap (@length _) (fit_swag m o s) = match o with Available => Ok 1 | AfterMap _ => Ok 5 | Nothing => Err ValueError end
  /\ rmap (@length _) (fit_laplace m o) = match o with Available => Ok 0 | AfterMap _ => Ok 4 | Nothing => Err ValueError end.
Proof.
  intros m o freeze leaves size s n val first each. repeat split.
  - unfold fit_ensemble. rewrite app_length. f_equal; [unfold first; now destruct o, freeze|].
    induction size as [|k IH]; [reflexivity|]. cbn [repeat concat]. rewrite app_length, IH, member_length. unfold each. destruct o; reflexivity.
  - unfold fit_sampler, first, each. destruct o, freeze; reflexivity.
  - destruct o; reflexivity.
  - destruct val; reflexivity.
  - destruct o; reflexivity.
  - destruct o; reflexivity.
Qed.
Theorem uses_advance : forall label g rs cs, session label g (rs ++ cs) =
  session label g rs ++ session label (g ++ repeat (Cut (label 2) 0) (length rs)) cs.
Proof. intros label g rs cs. apply session_app. Qed.
