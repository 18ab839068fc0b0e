(** Proofs for NoiseProps: keys of samplers and of sessions. *)
From Coq Require Import List Arith Bool Lia QArith Reals Lra.
From Verif Require Import Lib DrawModel DrawSpec DrawProofs McmcModel NoiseModel NoiseSpec.
Import ListNotations.
Local Open Scope nat_scope.

Lemma split2_eq label k : split2 label k = (k ++ [Cut (label 2) 0], k ++ [Cut (label 2) 1]).
Proof. unfold split2. now rewrite !nth_split by lia. Qed.

(** ---- the stream of a sampler ---- *)
Lemma leaf_normal_eq label normal leaves i j k : i < leaves ->
  leaf_normal label normal leaves i j k = normal (k ++ [Cut (label leaves) i]) j.
Proof. intros H. unfold leaf_normal. now rewrite nth_split. Qed.
Lemma noise_key_step label leaves k t i : noise_key label leaves (k ++ [Cut (label 2) 1]) t i = noise_key label leaves k (S t) i.
Proof. unfold noise_key. now rewrite <- app_assoc. Qed.

Section Stream.
Variables (label : nat -> nat) (P : preconditioner) (normal : key -> nat -> R) (leaves i j : nat).
Hypothesis Hi : i < leaves.
Let ln := leaf_normal label normal leaves i j.
Lemma normal_stream k : ln (fst (split2 label k)) = normal (noise_key label leaves k 0 i) j.
Proof. unfold ln. rewrite leaf_normal_eq by assumption. rewrite split2_eq. cbn [fst]. unfold noise_key. cbn [repeat app]. now rewrite <- app_assoc. Qed.

Lemma sghmc_driven_from decay resample schedule gs : forall t0 t k m pc z,
  (forall u, z (t0 + u) = normal (noise_key label leaves k u i) j) -> t = t0 ->
  fst (integrate P key (sghmc_update P key (split2 label) ln decay resample schedule) gs
        {| sg_count := t; sg_key := k; sg_momentum := m; sg_pc := pc |})
  = sghmc_driven P decay resample schedule z t m pc gs.
Proof.
  induction gs as [|g gs IH]; intros t0 t k m pc z Z E; [reflexivity|]. subst t.
  cbn [integrate sghmc_driven]. unfold sghmc_update at 1. cbn [sg_count sg_key sg_momentum sg_pc].
  rewrite normal_stream. pose proof (Z 0) as Z0. rewrite Nat.add_0_r in Z0. rewrite <- Z0.
  set (m' := (decay * _ + _ + _)%R). set (pc' := pc_update P g pc).
  specialize (IH (S t0) (S t0) (snd (split2 label k)) m' pc' z).
  destruct (integrate _ _ _ gs _) as [us st] eqn:E. cbn [fst]. f_equal.
  - apply IH; [|reflexivity].
    intros u. rewrite split2_eq. cbn [snd]. rewrite noise_key_step. rewrite <- Z. f_equal. lia.
Qed.

Lemma cyclical_driven_from cycle ratio schedule gs : forall j0 t k m pc z,
  (forall u, z (j0 + u) = normal (noise_key label leaves k u i) j) ->
  fst (integrate P key (cyclical_update P key (split2 label) ln cycle ratio schedule) gs
        {| sg_count := t; sg_key := k; sg_momentum := m; sg_pc := pc |})
  = cyclical_driven P cycle ratio schedule z t j0 pc gs.
Proof.
  induction gs as [|g gs IH]; intros j0 t k m pc z Z; [reflexivity|].
  cbn [integrate cyclical_driven]. unfold cyclical_update at 1. cbn [sg_count].
  change (inject_Z (Z.of_nat (t mod cycle)) / inject_Z (Z.of_nat cycle))%Q with (phase cycle t).
  destruct (Qle_bool ratio (phase cycle t)).
  - unfold sghmc_update at 1. cbn [sg_count sg_key sg_momentum sg_pc].
    rewrite normal_stream. pose proof (Z 0) as Z0. rewrite Nat.add_0_r in Z0. rewrite <- Z0.
    set (m' := (0 * _ + _ + _)%R). set (pc' := pc_update P g pc).
    specialize (IH (S j0) (S t) (snd (split2 label k)) m' pc' z).
    destruct (integrate _ _ _ gs _) as [us st] eqn:E. cbn [fst]. f_equal.
    + do 2 f_equal. unfold m'. replace (2 * (1 - 0))%R with 2%R by lra. fold pc'. lra.
    + apply IH.
      intros u. rewrite split2_eq. cbn [snd]. rewrite noise_key_step. rewrite <- Z. f_equal. lia.
  - unfold sgd_update at 1. cbn [sg_count sg_key sg_momentum sg_pc]. set (pc' := pc_update P g pc).
    specialize (IH j0 (S t) k m pc' z Z).
    destruct (integrate _ _ _ gs _) as [us st] eqn:E. cbn [fst]. f_equal.
    + f_equal. ring.
    + exact IH.
Qed.
End Stream.

Theorem sghmc_stream : forall label P normal leaves i j decay resample schedule k gs, i < leaves ->
  sghmc_run label P normal leaves i j decay resample schedule k gs =
  sghmc_driven P decay resample schedule (fun t => normal (noise_key label leaves k t i) j) 0 0%R (pc_init P) gs.
Proof.
  intros. unfold sghmc_run, sghmc_init. now apply sghmc_driven_from with (t0 := 0).
Qed.
Theorem cyclical_stream : forall label P normal leaves i j cycle ratio schedule k gs, i < leaves ->
  cyclical_run label P normal leaves i j cycle ratio schedule k gs =
  cyclical_driven P cycle ratio schedule (fun t => normal (noise_key label leaves k t i) j) 0 0 (pc_init P) gs.
Proof.
  intros. unfold cyclical_run, sghmc_init. now apply cyclical_driven_from.
Qed.

(** the keys of a run *)
Lemma step_noise_eq label leaves k : step_noise_keys label leaves k = map (noise_key label leaves k 0) (seq 0 leaves).
Proof.
  unfold step_noise_keys. rewrite split2_eq. cbn [fst]. unfold split. apply map_ext. intros i. unfold child, noise_key. cbn [repeat app]. now rewrite <- app_assoc.
Qed.
Lemma run_noise_eq label leaves : forall s k,
  run_noise_keys label leaves s k = flat_map (fun t => map (noise_key label leaves k t) (seq 0 leaves)) (seq 0 s).
Proof.
  induction s as [|s IH]; intros k; [reflexivity|]. cbn [run_noise_keys seq flat_map]. rewrite step_noise_eq. f_equal.
  rewrite IH, split2_eq. cbn [snd]. rewrite <- seq_shift, flat_map_concat_map, flat_map_concat_map, map_map. f_equal.
  apply map_ext. intros t. apply map_ext. intros i. apply noise_key_step.
Qed.
Lemma in_run_noise label leaves s k a : In a (run_noise_keys label leaves s k) <-> exists t i, t < s /\ i < leaves /\ a = noise_key label leaves k t i.
Proof.
  rewrite run_noise_eq, in_flat_map. split.
  - intros (t & I & J). apply in_map_iff in J as (i & <- & J). apply in_seq in I, J. exists t, i. repeat split; lia.
  - intros (t & i & A & B & ->). exists t. rewrite in_seq. split; [lia|]. apply in_map. apply in_seq. lia.
Qed.
Lemma noise_keys_apart label leaves k t i t' i' : (t, i) <> (t', i') -> apart (noise_key label leaves k t i) (noise_key label leaves k t' i').
Proof.
  intros N. unfold noise_key. apply apart_app. revert t' N. induction t as [|t IH]; intros [|t'] N; cbn [repeat app].
  - apply (apart_cons_ne [Cut (label 2) 0]). intros E. injection E as E. subst. now apply N.
  - apply (apart_cons_ne []). discriminate.
  - apply (apart_cons_ne []). discriminate.
  - apply (apart_app [Cut (label 2) 1]). apply IH. intros E. injection E as E1 E2. subst. now apply N.
Qed.
Lemma independent_flat_map_seq (f : nat -> list key) s :
  (forall t, t < s -> independent (f t)) -> (forall t t' a b, t < t' < s -> In a (f t) -> In b (f t') -> apart a b) ->
  independent (flat_map f (seq 0 s)).
Proof.
  intros H1 H2. assert (G : forall n lo, lo + n <= s -> independent (flat_map f (seq lo n))).
  { induction n as [|n IH]; intros lo L; cbn [seq flat_map]; [constructor|]. apply independent_app; [apply H1; lia|apply IH; lia|].
    intros a b I J. apply in_flat_map in J as (t' & I' & J). apply in_seq in I'. apply (H2 lo t'); auto. lia. }
  now apply G.
Qed.
Theorem run_noise_independent : forall label leaves s k, independent (run_noise_keys label leaves s k).
Proof.
  intros label leaves s k. rewrite run_noise_eq. apply independent_flat_map_seq.
  - intros t _. apply independent_map; [|apply seq_NoDup]. intros a b _ _ N. apply noise_keys_apart. congruence.
  - intros t t' a b L I J. apply in_map_iff in I as (i & <- & _). apply in_map_iff in J as (i' & <- & _). apply noise_keys_apart. intros E. injection E as E _. lia.
Qed.
(** the keys that runs draw from are those of [run_noise_keys]: same numbers at these keys, same run *)
Lemma sghmc_driven_ext P decay resample schedule gs : forall z z' t m pc, (forall u, t <= u < t + length gs -> z u = z' u) ->
  sghmc_driven P decay resample schedule z t m pc gs = sghmc_driven P decay resample schedule z' t m pc gs.
Proof.
  induction gs as [|g gs IH]; intros z z' t m pc H; [reflexivity|]. cbn [sghmc_driven]. cbn [length] in H. rewrite <- (H t) by lia. f_equal. apply IH. intros u L. apply H. lia.
Qed.
Lemma cyclical_driven_ext P cycle ratio schedule gs : forall z z' t j pc, (forall u, j <= u < j + length gs -> z u = z' u) ->
  cyclical_driven P cycle ratio schedule z t j pc gs = cyclical_driven P cycle ratio schedule z' t j pc gs.
Proof.
  induction gs as [|g gs IH]; intros z z' t j pc H; [reflexivity|]. cbn [cyclical_driven]. cbn [length] in H. destruct (Qle_bool _ _).
  - rewrite <- (H j) by lia. f_equal. apply IH. intros u L. apply H. lia.
  - f_equal. apply IH. intros u L. apply H. lia.
Qed.
Theorem runs_draw : forall label P normal normal' leaves i j decay resample schedule cycle ratio k gs, i < leaves ->
  (forall a, In a (run_noise_keys label leaves (length gs) k) -> normal a j = normal' a j) ->
  sghmc_run label P normal leaves i j decay resample schedule k gs = sghmc_run label P normal' leaves i j decay resample schedule k gs
  /\ cyclical_run label P normal leaves i j cycle ratio schedule k gs = cyclical_run label P normal' leaves i j cycle ratio schedule k gs.
Proof.
  intros label P normal normal' leaves i j decay resample schedule cycle ratio k gs Hi H. rewrite !sghmc_stream, !cyclical_stream by assumption.
  split; [apply sghmc_driven_ext|apply cyclical_driven_ext]; intros u L; apply H; apply in_run_noise; exists u, i; repeat split; auto; lia.
Qed.

(** ---- requests ---- *)
Lemma derived_refl k : derived k k.
Proof. exists []. now rewrite app_nil_r. Qed.
Lemma derived_trans a b c : derived a b -> derived b c -> derived a c.
Proof. intros [x ->] [y ->]. exists (x ++ y). now rewrite app_assoc. Qed.
Lemma apart_derived a b a' b' : apart a b -> derived a a' -> derived b b' -> apart a' b'.
Proof.
  intros [N1 N2] [x ->] [y ->]. split; intros [z E]; rewrite <- ?app_assoc in E.
  - destruct (app_eq_app _ _ _ _ E) as (u & [[-> _]|[-> _]]); [apply N1; now exists u|apply N2; now exists u].
  - destruct (app_eq_app _ _ _ _ E) as (u & [[-> _]|[-> _]]); [apply N2; now exists u|apply N1; now exists u].
Qed.
Theorem refine_independent : forall (f : key -> list key) ks,
  (forall k, independent (f k) /\ Forall (derived k) (f k)) -> independent ks -> independent (flat_map f ks).
Proof.
  intros f ks Hf. induction 1 as [|k ks F _ IH]; cbn [flat_map]; [constructor|].
  apply independent_app; [apply Hf|exact IH|]. intros a b I J. apply in_flat_map in J as (k' & I' & J).
  destruct (Hf k) as [_ D]. destruct (Hf k') as [_ D']. rewrite Forall_forall in D, D', F. apply (apart_derived k k'); auto.
Qed.
Theorem sample_keys_refine : forall label p k, independent (sample_keys label p k) /\ Forall (derived k) (sample_keys label p k).
Proof.
  intros label p k. destruct p as [|leaves| | |]; cbn [sample_keys].
  - split; constructor.
  - split; [apply split_independent|]. apply Forall_forall. intros a I. apply in_split in I as (i & _ & ->). now exists [Cut (label leaves) i].
  - rewrite !nth_split by lia. split.
    + repeat constructor; apply apart_cons_ne; discriminate.
    + repeat constructor; eexists; reflexivity.
  - rewrite nth_split by lia. split; repeat constructor. eexists; reflexivity.
  - split; repeat constructor. apply derived_refl.
Qed.

Section Sessions.
Variable label : nat -> nat.
Notation c0 := (Cut (label 2) 0).
Notation c1 := (Cut (label 2) 1).
(** first moves below the request's key, and second moves below the generator's next key *)
Definition firsts (r : request) (m : move) : Prop :=
  match r with
  | Call (Average n) | Call (Samples n) => exists i, m = Cut (label n) i
  | Call (Entropies n) => exists i, m = Cut (label (1 + n)) i
  | Call (Variances _) => m = c1
  | Call (Training _) => exists i, m = Fold i
  | Init n => exists i, 1 <= i /\ m = Cut (label n) i
  | Sampler _ _ => m = c1
  | FlowTraining _ val => (exists i, m = Fold i) \/ (val = true /\ m = c1)
  | Unused | Direct => False
  end.
Definition seconds (r : request) (m : move) : Prop :=
  match r with
  | Call (Variances _) => m = c1
  | Sampler leaves _ => exists i, m = Cut (label leaves) i
  | _ => False
  end.
Lemma flow_keys_eq k : flow_keys label k = [k ++ [c0]; k ++ [c1; c1]].
Proof. unfold flow_keys. rewrite !nth_split by lia. now rewrite <- app_assoc. Qed.
Lemma in_init_keys n k a : In a (init_keys label n k) -> exists i, 1 <= i /\ a = k ++ [Cut (label n) i].
Proof. unfold init_keys. destruct n as [|n]; [intros []|]. apply (in_tl_split label k n a). Qed.
Lemma request_shape k r a : clean_request label r -> In a (request_keys label k r) ->
  (exists m t, a = k ++ m :: t /\ m <> c0 /\ firsts r m) \/ (exists m t, a = k ++ c0 :: m :: t /\ m <> c0 /\ seconds r m).
Proof.
  intros C I. destruct r as [c|n|leaves s|s val| |]; cbn [request_keys clean_request] in *.
  - destruct c as [n|n|n|n|s]; cbn [drawn clean firsts seconds] in *.
    + left. apply in_split in I as (i & _ & ->). exists (Cut (label n) i), []. repeat split; [|eauto]. intros E. injection E as E _. now apply C.
    + left. rewrite hd_split in I. apply in_app_or in I as [I|I].
      * apply in_split in I as (i & _ & ->). exists (Cut (label (1 + n)) 0), [Cut (label n) i]. rewrite <- app_assoc. repeat split; [|eauto]. intros E. injection E as E. now apply C.
      * apply in_tl_split in I as (i & _ & ->). exists (Cut (label (1 + n)) i), []. repeat split; [|eauto]. intros E. injection E as E _. now apply C.
    + left. apply in_flat_map in I as (k' & I & J). apply in_split in I as (i & _ & ->). apply in_split in J as (u & _ & ->).
      exists (Cut (label n) i), [Cut (label 2) u]. rewrite <- app_assoc. repeat split; [|eauto]. intros E. injection E as E _. now apply C.
    + rewrite !nth_split in I by lia. apply in_app_or in I as [I|I]; apply in_split in I as (i & _ & ->).
      * left. exists c1, [Cut (label n) i]. rewrite <- app_assoc. repeat split. discriminate.
      * right. exists c1, [Cut (label n) i]. rewrite <- !app_assoc. repeat split. discriminate.
    + left. apply in_map_iff in I as (i & <- & _). exists (Fold i), []. repeat split; [discriminate|eauto].
  - left. apply in_init_keys in I as (i & L & ->). exists (Cut (label n) i), []. repeat split; [|cbn; eauto]. intros E. injection E as _ E. lia.
  - apply in_run_noise in I as (t & i & _ & _ & ->). destruct t as [|t].
    + right. exists (Cut (label leaves) i), []. split; [reflexivity|]. split; [|cbn; eauto]. intros E. injection E as E _. now apply C.
    + left. exists c1, (repeat c1 t ++ [c0; Cut (label leaves) i]). split; [reflexivity|]. split; [discriminate|reflexivity].
  - left. apply in_app_or in I as [I|I].
    + apply in_flat_map in I as (k' & I & J). apply in_map_iff in I as (i & <- & _). rewrite flow_keys_eq in J.
      destruct J as [<-|[<-|[]]]; unfold fold_in; rewrite <- app_assoc; do 2 eexists; (split; [reflexivity|]); (split; [discriminate|]); cbn; eauto.
    + destruct val; [|destruct I]. rewrite flow_keys_eq in I. destruct I as [<-|[]]. exists c1, [c1]. repeat split; [discriminate|]. cbn. auto.
  - destruct I.
  - destruct C.
Qed.
Lemma session_prefix rs : Forall (clean_request label) rs -> forall g a, In a (session label g rs) -> exists m t, a = g ++ c0 :: m :: t.
Proof.
  induction 1 as [|r rs C _ IH]; intros g a I; cbn [session] in I; [destruct I|]. rewrite rng_get_eq in I.
  apply in_app_or in I as [I|I].
  - destruct (request_shape _ _ _ C I) as [(m & t & -> & _)|(m & t & -> & _)]; rewrite <- app_assoc; cbn; eauto.
  - apply IH in I as (m & t & ->). rewrite <- app_assoc. cbn. eauto.
Qed.
Lemma compatible_sets r r' m : clean_request label r -> clean_request label r' -> compatible label r r' -> seconds r m -> firsts r' m -> False.
Proof.
  intros C C' K S F. destruct r as [c|n|leaves s|s val| |]; cbn [seconds] in S; try contradiction.
  - destruct c; try contradiction. subst m. destruct r' as [c|n'|leaves' s'|s' val'| |]; cbn [compatible firsts] in *; try contradiction.
    + destruct c as [a|a|a|a|a]; cbn [clean_request clean] in *; try contradiction.
      * destruct F as (i & F). injection F as F. solve [first [now apply C'|now apply C|now apply K|now apply C', eq_sym|now apply K, eq_sym|congruence]].
      * destruct F as (i & F). injection F as F. solve [first [now apply C'|now apply C|now apply K|now apply C', eq_sym|now apply K, eq_sym|congruence]].
      * destruct F as (i & F). injection F as F. solve [first [now apply C'|now apply C|now apply K|now apply C', eq_sym|now apply K, eq_sym|congruence]].
      * destruct F as (i & F). discriminate.
    + destruct F as (i & _ & F). injection F as F. solve [first [now apply C'|now apply C|now apply K|now apply C', eq_sym|now apply K, eq_sym|congruence]].
    + destruct F as [(i & F)|(-> & _)]; [discriminate|contradiction].
  - destruct S as (i & ->). cbn [clean_request] in C. destruct r' as [c|n'|leaves' s'|s' val'| |]; cbn [compatible firsts] in *; try contradiction.
    + destruct c as [a|a|a|a|a].
      * destruct F as (u & F). injection F as F. solve [first [now apply C'|now apply C|now apply K|now apply C', eq_sym|now apply K, eq_sym|congruence]].
      * destruct F as (u & F). injection F as F. solve [first [now apply C'|now apply C|now apply K|now apply C', eq_sym|now apply K, eq_sym|congruence]].
      * destruct F as (u & F). injection F as F. solve [first [now apply C'|now apply C|now apply K|now apply C', eq_sym|now apply K, eq_sym|congruence]].
      * injection F as F _. solve [first [now apply C'|now apply C|now apply K|now apply C', eq_sym|now apply K, eq_sym|congruence]].
      * destruct F as (u & F). discriminate.
    + destruct F as (u & _ & F). injection F as F _. solve [first [now apply C'|now apply C|now apply K|now apply C', eq_sym|now apply K, eq_sym|congruence]].
    + injection F as F _. solve [first [now apply C'|now apply C|now apply K|now apply C', eq_sym|now apply K, eq_sym|congruence]].
    + destruct F as [(u & F)|(_ & F)]; [discriminate|]. injection F as F _. solve [first [now apply C'|now apply C|now apply K|now apply C', eq_sym|now apply K, eq_sym|congruence]].
Qed.
Theorem request_independent : forall k r, independent (request_keys label k r).
Proof.
  intros k r. destruct r as [c|n|leaves s|s val| |]; cbn [request_keys].
  - apply drawn_independent.
  - unfold init_keys. pose proof (split_independent label k n) as H. destruct (split label k n); cbn [tl]; [constructor|]. now inversion H.
  - apply run_noise_independent.
  - apply independent_app.
    + apply refine_independent.
      * intros k'. rewrite flow_keys_eq. split; [|repeat constructor; eexists; reflexivity]. constructor; [constructor; [apply apart_cons_ne; discriminate|constructor]|repeat constructor].
      * apply independent_map; [|apply seq_NoDup]. intros a b _ _ N. unfold fold_in. apply apart_cons_ne. intros E. injection E as E. auto.
    + destruct val; [|constructor]. rewrite flow_keys_eq. repeat constructor.
    + intros a b I J. destruct val; [|destruct J]. rewrite flow_keys_eq in J. destruct J as [<-|[]].
      apply in_flat_map in I as (k' & I & J). apply in_map_iff in I as (i & <- & _). rewrite flow_keys_eq in J.
      destruct J as [<-|[<-|[]]]; unfold fold_in; rewrite <- app_assoc; apply apart_cons_ne; discriminate.
  - constructor.
  - repeat constructor.
Qed.
End Sessions.

Lemma adjacent_tl {A} (R : A -> A -> Prop) a l : adjacent R (a :: l) -> adjacent R l.
Proof. intros H l1 x y l2 ->. apply (H (a :: l1) x y l2). reflexivity. Qed.
Theorem session_independent : forall label g rs, proper label rs -> independent (session label g rs).
Proof.
  intros label g rs [C A]. revert g A. induction C as [|r rs Cr Cs IH]; intros g A; cbn [session]; [constructor|].
  rewrite rng_get_eq. set (k := g ++ [Cut (label 2) 0]). apply independent_app.
  - apply request_independent.
  - apply IH. exact (adjacent_tl _ _ _ A).
  - intros a b I J. destruct (request_shape label k r a Cr I) as [(m & t & -> & N & _)|(m & t & -> & N & S)].
    + destruct (session_prefix label rs Cs _ _ J) as (m' & t' & ->). now apply apart_cons_ne.
    + destruct rs as [|r' rs]; [destruct J|]. cbn [session] in J. rewrite rng_get_eq in J. inversion Cs as [|x y Cr' Cs']; subst.
      change (k ++ Cut (label 2) 0 :: m :: t) with (k ++ [Cut (label 2) 0] ++ m :: t). rewrite app_assoc.
      apply in_app_or in J as [J|J].
      * destruct (request_shape label _ r' b Cr' J) as [(m' & t' & -> & _ & F)|(m' & t' & -> & _)].
        -- apply apart_cons_ne. intros <-. apply (compatible_sets label r r' m); auto. apply (A [] r r' rs). reflexivity.
        -- now apply apart_cons_ne.
      * destruct (session_prefix label rs Cs' _ _ J) as (m' & t' & ->). now apply apart_cons_ne.
Qed.
