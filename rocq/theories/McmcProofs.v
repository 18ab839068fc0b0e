(** Proofs about sampling callbacks. *)
From Coq Require Import List Arith ZArith QArith Bool Lia Lqa Sorting.Sorted.
From Verif Require Import Lib QuantModel QuantProofs ConfRegModel MetricSpec MetricProofs MetricProofs2 PredModel PredSpec McmcModel McmcSpec.
Import ListNotations.
Open Scope Q_scope.

Section Generic.
Context {S : Type} (n : nat) (c : nat -> bool) (do : nat -> nat -> result bool).
Hypothesis Hdo : forall step count, do step count = Ok ((count <? n)%nat && c step).
(** the eligible (step, state) pairs of a run *)
Definition picked (cur : nat) (states : list S) : list (nat * S) := filter (fun p => c (fst p)) (combine (seq (Datatypes.S cur) (length states)) states).
Lemma run_picked : forall states cur cnt,
  sampling_run do cur cnt states = Ok (combine (seq cnt (length (firstn (n - cnt) (picked cur states)))) (map snd (firstn (n - cnt) (picked cur states)))).
Proof.
  induction states as [|s r IH]; intros cur cnt; cbn [sampling_run].
  - unfold picked. cbn [length seq combine filter]. now rewrite firstn_nil.
  - rewrite Hdo. cbn [bind]. unfold picked. cbn [length seq combine filter fst]. fold (picked (Datatypes.S cur) r). destruct (Nat.ltb_spec cnt n) as [L|L]; cbn [andb].
    + destruct (c (Datatypes.S cur)); cbn [andb].
      * rewrite IH. cbn [rmap]. replace (n - cnt)%nat with (Datatypes.S (n - Datatypes.S cnt)) by lia. cbn [firstn map length seq combine snd]. reflexivity.
      * rewrite IH. reflexivity.
    + rewrite IH. replace (n - cnt)%nat with 0%nat by lia. reflexivity.
Qed.
Lemma combine_seq_nth {A} (l : list A) : forall k j, nth_error (combine (seq k (length l)) l) j = option_map (fun x => ((k + j)%nat, x)) (nth_error l j).
Proof. induction l as [|x l IH]; intros k [|j]; cbn [length seq combine nth_error option_map]; try reflexivity. now rewrite Nat.add_0_r. rewrite IH. now rewrite Nat.add_succ_comm. Qed.
Lemma picked_in cur states p : In p (picked cur states) -> c (fst p) = true /\ (cur < fst p)%nat /\ nth_error states (fst p - cur - 1) = Some (snd p).
Proof.
  intros H. apply filter_In in H. destruct H as [H E]. split; [exact E|]. apply In_nth_error in H. destruct H as [j H]. rewrite combine_seq_nth in H. destruct (nth_error states j) as [s|] eqn:N; [|discriminate]. injection H as <-. cbn [fst snd]. split; [lia|]. rewrite <- N. f_equal. lia.
Qed.
Lemma picked_steps states : forall cur, map fst (picked cur states) = filter c (seq (Datatypes.S cur) (length states)).
Proof.
  induction states as [|s r IH]; intros cur; [reflexivity|]. unfold picked. cbn [length seq combine filter fst]. fold (picked (Datatypes.S cur) r). destruct (c (Datatypes.S cur)); cbn [map fst]; now rewrite IH.
Qed.
Lemma run_stored (states : list S) : exists puts, sampling_run do 0 0 states = Ok puts /\ stored_from (firstn n (filter c (seq 1 (length states)))) states puts.
Proof.
  eexists. split; [apply run_picked|]. rewrite Nat.sub_0_r. rewrite <- picked_steps. set (l := picked 0 states). rewrite firstn_map. set (m := firstn n l).
  assert (Hm : forall p, In p m -> c (fst p) = true /\ (0 < fst p)%nat /\ nth_error states (fst p - 0 - 1) = Some (snd p)). { intros p Hp. apply (picked_in 0 states). change (In p l). unfold m in Hp. rewrite <- (firstn_skipn n l). apply in_app_iff. now left. }
  split. { rewrite combine_length, seq_length, !map_length. lia. }
  intros j step Hj. rewrite nth_error_map in Hj. destruct (nth_error m j) as [p|] eqn:E; [|discriminate]. injection Hj as <-. destruct (Hm p (nth_error_In _ _ E)) as (_ & A & B). split; [lia|]. exists (snd p). split.
  - rewrite <- (map_length snd m). rewrite combine_seq_nth, nth_error_map, E. reflexivity.
  - rewrite <- B. f_equal. lia.
Qed.
Lemma count_filter steps : (0 < n)%nat -> count_samples do steps = Ok (length (filter c steps)).
Proof.
  intros N. induction steps as [|s r IH]; cbn [count_samples filter]; [reflexivity|]. rewrite Hdo, IH. cbn [bind]. destruct (Nat.ltb_spec 0 n); [|lia]. cbn [andb]. now destruct (c s).
Qed.
Lemma count_zero steps : n = 0%nat -> count_samples do steps = Ok 0%nat.
Proof. intros N. induction steps as [|s r IH]; cbn [count_samples]; [reflexivity|]. rewrite Hdo, IH, N. reflexivity. Qed.
Lemma make_spec E T : make_callback do n E T = if (length (filter c (seq 1 (E * T))) <? n)%nat then Err ValueError else Ok do.
Proof.
  unfold make_callback. destruct (Nat.eq_dec n 0) as [Z|Z].
  - rewrite count_zero by assumption. cbn [bind]. rewrite Z. destruct (length _); reflexivity.
  - rewrite count_filter by lia. reflexivity.
Qed.
End Generic.

(** ---- SGHMC ---- *)
Definition due_b (thin burnin step : nat) : bool := (burnin <? step)%nat && (((step - burnin) mod thin) =? 0)%nat.
Lemma sghmc_do n thin burnin : (0 < thin)%nat -> forall step count, do_sample_sghmc n thin burnin step count = Ok ((count <? n)%nat && due_b thin burnin step).
Proof.
  intros H step count. unfold do_sample_sghmc, due_b. destruct (count <? n)%nat; cbn [negb andb]; [|reflexivity]. destruct (burnin <? step)%nat; cbn [negb andb]; [|reflexivity]. destruct (Nat.eqb_spec thin 0); [lia|reflexivity].
Qed.
Lemma div_succ a t : (0 < t)%nat -> (Datatypes.S a / t = a / t + if (Datatypes.S a mod t =? 0) then 1 else 0)%nat.
Proof.
  intros H. pose proof (Nat.div_mod (Datatypes.S a) t ltac:(lia)) as A. pose proof (Nat.div_mod a t ltac:(lia)) as B. pose proof (Nat.mod_upper_bound (Datatypes.S a) t ltac:(lia)). pose proof (Nat.mod_upper_bound a t ltac:(lia)).
  destruct (Nat.eqb_spec (Datatypes.S a mod t) 0) as [E|E].
  - rewrite E in A. rewrite Nat.add_0_r in A. assert (t * (a / t) <= a /\ a < t * (a/t) + t)%nat by lia. assert (Datatypes.S a / t = a / t + 1)%nat; [|lia]. nia.
  - assert (Datatypes.S a / t = a / t)%nat; [|lia]. nia.
Qed.
Lemma due_list thin burnin N : (0 < thin)%nat -> filter (due_b thin burnin) (seq 1 N) = map (due_step burnin thin) (seq 0 ((N - burnin) / thin)).
Proof.
  intros H. induction N as [|N IH]. cbn [seq filter]. rewrite Nat.sub_0_l, Nat.div_0_l by lia. reflexivity.
  rewrite seq_S, filter_app, IH. cbn [filter Nat.add]. destruct (Nat.le_gt_cases burnin N) as [L|L].
  - replace (Datatypes.S N - burnin)%nat with (Datatypes.S (N - burnin)) by lia. rewrite (div_succ (N - burnin) thin H). unfold due_b at 1. destruct (Nat.ltb_spec burnin (Datatypes.S N)); [|lia]. cbn [andb]. replace (Datatypes.S N - burnin)%nat with (Datatypes.S (N - burnin)) by lia.
    destruct (Nat.eqb_spec (Datatypes.S (N - burnin) mod thin) 0) as [E|E].
    + rewrite Nat.add_1_r, seq_S, map_app. cbn [map]. f_equal. f_equal. unfold due_step. cbn [Nat.add].
      pose proof (div_succ (N - burnin) thin H) as D. rewrite E in D. cbn [Nat.eqb] in D. pose proof (Nat.div_mod (Datatypes.S (N - burnin)) thin ltac:(lia)) as A. rewrite E, D in A. lia.
    + rewrite Nat.add_0_r, app_nil_r. reflexivity.
  - unfold due_b at 1. destruct (Nat.ltb_spec burnin (Datatypes.S N)); [lia|]. cbn [andb]. rewrite app_nil_r. replace (Datatypes.S N - burnin)%nat with 0%nat by lia. replace (N - burnin)%nat with 0%nat by lia. reflexivity.
Qed.
Lemma firstn_seq n : forall m k, firstn n (seq k m) = seq k (Nat.min n m).
Proof. induction n as [|n IH]; intros [|m] k; cbn [firstn seq Nat.min]; try reflexivity. now rewrite IH. Qed.
Theorem sghmc_stores : forall (S : Type) n thin burnin (states : list S), (0 < thin)%nat ->
  exists puts, sampling_run (do_sample_sghmc n thin burnin) 0 0 states = Ok puts /\
    length puts = Nat.min n ((length states - burnin) / thin) /\
    forall j, (j < length puts)%nat -> exists s, nth_error puts j = Some (j, s) /\ nth_error states (due_step burnin thin j - 1) = Some s.
Proof.
  intros S n thin burnin states H. destruct (run_stored n (due_b thin burnin) _ (sghmc_do n thin burnin H) states) as (puts & E & L & P). exists puts. split; [exact E|].
  rewrite due_list, firstn_map, firstn_seq in L, P by exact H. rewrite map_length, seq_length in L. split; [exact L|]. intros j Hj.
  destruct (P j (due_step burnin thin j)) as [_ X]; [|exact X]. rewrite nth_error_map, (nth_error_nth' _ 0%nat) by (rewrite seq_length; lia). rewrite seq_nth by lia. reflexivity.
Qed.
Theorem sghmc_accepts : forall n thin burnin n_epochs n_steps, (0 < thin)%nat ->
  make_callback (do_sample_sghmc n thin burnin) n n_epochs n_steps =
    if (n <=? (n_epochs * n_steps - burnin) / thin)%nat then Ok (do_sample_sghmc n thin burnin) else Err ValueError.
Proof.
  intros n thin burnin E T H. rewrite (make_spec n (due_b thin burnin) _ (sghmc_do n thin burnin H)). rewrite due_list, map_length, seq_length by exact H.
  destruct (Nat.ltb_spec ((E * T - burnin) / thin) n), (Nat.leb_spec n ((E * T - burnin) / thin)); try lia; reflexivity.
Qed.
Theorem sghmc_complete : forall (S : Type) n thin burnin n_epochs n_steps do (states : list S), (0 < thin)%nat ->
  make_callback (do_sample_sghmc n thin burnin) n n_epochs n_steps = Ok do -> length states = (n_epochs * n_steps)%nat ->
  exists puts, sampling_run do 0 0 states = Ok puts /\ map fst puts = seq 0 n /\
    forall j, (j < n)%nat -> exists s, nth_error puts j = Some (j, s) /\ nth_error states (due_step burnin thin j - 1) = Some s.
Proof.
  intros S n thin burnin E T do states H M L. rewrite sghmc_accepts in M by assumption. destruct (Nat.leb_spec n ((E * T - burnin) / thin)) as [A|A]; [|discriminate]. injection M as <-.
  destruct (sghmc_stores S n thin burnin states H) as (puts & R & Lp & P). exists puts. split; [exact R|]. rewrite L in Lp. replace (Nat.min n ((E * T - burnin) / thin)) with n in Lp by lia. split; [|intros j Hj; apply P; lia].
  apply (nth_ext _ _ 0%nat 0%nat). now rewrite map_length, seq_length. intros j Hj. rewrite map_length in Hj. rewrite seq_nth by lia. destruct (P j Hj) as (s & E1 & _). apply nth_error_nth. rewrite nth_error_map, E1. reflexivity.
Qed.
(** early stopping: an accepted run that ends early has fewer samples than requested *)
Theorem sghmc_stopped_refuted : exists n thin burnin E T do (states : list nat) puts, make_callback (do_sample_sghmc n thin burnin) n E T = Ok do /\
  (length states < E * T)%nat /\ sampling_run do 0 0 states = Ok puts /\ (length puts < n)%nat.
Proof. exists 2%nat, 1%nat, 1%nat, 3%nat, 1%nat, (do_sample_sghmc 2 1 1), [10; 11]%nat, [(0, 11)]%nat. cbn. repeat split; try lia. Qed.
Theorem sghmc_zero_thinning : forall n burnin n_epochs n_steps, (0 < n)%nat -> 
  make_callback (do_sample_sghmc n 0 burnin) n n_epochs n_steps = if (burnin <? n_epochs * n_steps)%nat then Err ZeroDivisionError else Err ValueError.
Proof.
  intros n burnin E T H. unfold make_callback. set (N := (E * T)%nat). assert (X : forall m k, count_samples (do_sample_sghmc n 0 burnin) (seq k m) = if (burnin <? k + m)%nat && (0 <? m)%nat && (burnin <? (k + m - 1))%nat then Err ZeroDivisionError else Ok 0%nat).
  { induction m as [|m IH]; intros k; cbn [seq count_samples]. now rewrite andb_false_r. unfold do_sample_sghmc at 1. destruct (Nat.ltb_spec 0 n); [|lia]. cbn [negb]. destruct (Nat.ltb_spec burnin k) as [A|A]; cbn [negb Nat.eqb bind].
    - destruct (Nat.ltb_spec burnin (k + Datatypes.S m)), (Nat.ltb_spec 0 (Datatypes.S m)), (Nat.ltb_spec burnin (k + Datatypes.S m - 1)); try lia; reflexivity.
    - rewrite IH. destruct (Nat.ltb_spec burnin (Datatypes.S k + m)), (Nat.ltb_spec 0 m), (Nat.ltb_spec burnin (Datatypes.S k + m - 1)), (Nat.ltb_spec burnin (k + Datatypes.S m)), (Nat.ltb_spec 0 (Datatypes.S m)), (Nat.ltb_spec burnin (k + Datatypes.S m - 1)); try lia; cbn [andb bind]; reflexivity. }
  rewrite X. destruct (Nat.ltb_spec burnin N), (Nat.ltb_spec burnin (1 + N)), (Nat.ltb_spec 0 N), (Nat.ltb_spec burnin (1 + N - 1)); try lia; cbn [andb bind]; try reflexivity; destruct (Nat.ltb_spec 0 n); try lia; reflexivity.
Qed.

(** ---- cyclical SGLD ---- *)
Definition cyc_b (thin L : nat) (ratio : Q) (step : nat) : bool := Qle_bool ratio (phase L step) && (((step mod L) mod thin) =? 0)%nat.
Lemma cyc_do n thin L ratio : (0 < thin)%nat -> (0 < L)%nat -> forall step count, do_sample_cyclical n thin L ratio step count = Ok ((count <? n)%nat && cyc_b thin L ratio step).
Proof.
  intros H HL step count. unfold do_sample_cyclical, cyc_b. destruct (count <? n)%nat; cbn [negb andb]; [|reflexivity]. destruct (Nat.eqb_spec L 0); [lia|]. destruct (Qle_bool ratio (phase L step)); cbn [negb andb]; [|reflexivity]. destruct (Nat.eqb_spec thin 0); [lia|reflexivity].
Qed.
Lemma phase_ge L ratio step : (0 < L)%nat -> (Qle_bool ratio (phase L step) = true <-> ratio * nQ L <= nQ (step mod L)).
Proof.
  intros H. assert (P := nQ_pos L H). rewrite Qleb_true. unfold phase. fold (nQ L). fold (nQ (step mod L)). split; intros X.
  - assert (Y : ratio * nQ L <= nQ (step mod L) / nQ L * nQ L) by (apply Qmult_le_compat_r; lra). assert (E : nQ (step mod L) / nQ L * nQ L == nQ (step mod L)) by (field; lra). lra.
  - now apply Qle_shift_div_l.
Qed.
Lemma cyc_due thin L ratio step : (0 < L)%nat -> (cyc_b thin L ratio step = true <-> cyclical_due L thin ratio step).
Proof. intros H. unfold cyc_b, cyclical_due. rewrite andb_true_iff, phase_ge, Nat.eqb_eq by assumption. reflexivity. Qed.
Lemma filter_seq_sorted f m : forall k, StronglySorted lt (filter f (seq k m)).
Proof.
  induction m as [|m IH]; intros k; cbn [seq filter]; [constructor|]. destruct (f k); [|apply IH]. constructor; [apply IH|]. apply Forall_forall. intros x Hx. apply filter_In in Hx. destruct Hx as [Hx _]. apply in_seq in Hx. lia.
Qed.
Lemma sorted_firstn {A} (R : A -> A -> Prop) l : StronglySorted R l -> forall k, StronglySorted R (firstn k l).
Proof.
  induction 1 as [|x l S0 IH F]; intros [|k]; cbn [firstn]; try constructor. apply IH. apply Forall_forall. intros y Hy. rewrite Forall_forall in F. apply F. rewrite <- (firstn_skipn k l). apply in_app_iff. now left.
Qed.
Theorem cyclical_stores : forall (S : Type) n thin L ratio (states : list S), (0 < thin)%nat -> (0 < L)%nat ->
  exists puts steps, sampling_run (do_sample_cyclical n thin L ratio) 0 0 states = Ok puts /\
    stored_from steps states puts /\ StronglySorted lt steps /\ (length steps <= n)%nat /\
    (forall s, In s steps -> cyclical_due L thin ratio s) /\
    (forall s, (1 <= s <= length states)%nat -> cyclical_due L thin ratio s -> In s steps \/ (length steps = n /\ forall s', In s' steps -> (s' < s)%nat)).
Proof.
  intros S n thin L ratio states H HL. destruct (run_stored n (cyc_b thin L ratio) _ (cyc_do n thin L ratio H HL) states) as (puts & E & P). set (all := filter _ _) in *.
  exists puts, (firstn n all). split; [exact E|]. split; [exact P|]. assert (SS := filter_seq_sorted (cyc_b thin L ratio) (length states) 1). fold all in SS. split; [now apply sorted_firstn|]. split; [rewrite firstn_length; lia|]. split.
  - intros s Hs. apply (cyc_due thin L ratio s HL). assert (X : In s all). { rewrite <- (firstn_skipn n all). apply in_app_iff. now left. } apply filter_In in X. tauto.
  - intros s Hs D. assert (X : In s all). { apply filter_In. split; [apply in_seq; lia|]. now apply cyc_due. }
    rewrite <- (firstn_skipn n all) in X. apply in_app_iff in X. destruct X as [X|X]; [now left|]. right. split.
    + rewrite firstn_length. assert (n < length all)%nat; [|lia]. destruct (Nat.le_gt_cases (length all) n) as [A|A]; [|exact A]. rewrite skipn_all2 in X by exact A. destruct X.
    + intros s' Hs'. rewrite <- (firstn_skipn n all) in SS. clear -SS X Hs'. revert SS Hs'. generalize (firstn n all). induction l as [|a l IH]; intros SS Hs'; [destruct Hs'|]. cbn [app] in SS. apply StronglySorted_inv in SS. destruct SS as [SS F]. destruct Hs' as [->|Hs']; [|now apply IH]. rewrite Forall_forall in F. apply F. apply in_app_iff. now right.
Qed.
Theorem cyclical_accepts : forall n thin L ratio n_epochs n_steps do, (0 < thin)%nat -> (0 < L)%nat -> 
  make_callback (do_sample_cyclical n thin L ratio) n n_epochs n_steps = Ok do ->
  do = do_sample_cyclical n thin L ratio /\
  forall (S : Type) (states : list S), length states = (n_epochs * n_steps)%nat -> exists puts, sampling_run do 0 0 states = Ok puts /\ map fst puts = seq 0 n.
Proof.
  intros n thin L ratio E T do H HL M. rewrite (make_spec n (cyc_b thin L ratio) _ (cyc_do n thin L ratio H HL)) in M. destruct (Nat.ltb_spec (length (filter (cyc_b thin L ratio) (seq 1 (E * T)))) n) as [A|A]; [discriminate|]. injection M as <-. split; [reflexivity|].
  intros S states Ls. destruct (run_stored n (cyc_b thin L ratio) _ (cyc_do n thin L ratio H HL) states) as (puts & R & Lp & P). exists puts. split; [exact R|]. rewrite Ls in *. rewrite firstn_length in Lp.
  apply (nth_ext _ _ 0%nat 0%nat). rewrite map_length, seq_length. lia. intros j Hj. rewrite map_length in Hj. rewrite seq_nth by lia.
  destruct (nth_error (firstn n (filter (cyc_b thin L ratio) (seq 1 (E * T)))) j) as [st|] eqn:X. 2: { apply nth_error_None in X. rewrite firstn_length in X. lia. }
  destruct (P j st X) as (_ & s & E1 & _). apply nth_error_nth. rewrite nth_error_map, E1. reflexivity.
Qed.
Theorem cyclical_rejects : forall n thin L ratio n_epochs n_steps, (0 < thin)%nat -> (0 < L)%nat ->
  (make_callback (do_sample_cyclical n thin L ratio) n n_epochs n_steps = Err ValueError <->
   forall steps, NoDup steps -> (forall s, In s steps -> (1 <= s <= n_epochs * n_steps)%nat /\ cyclical_due L thin ratio s) -> (length steps < n)%nat).
Proof.
  intros n thin L ratio E T H HL. rewrite (make_spec n (cyc_b thin L ratio) _ (cyc_do n thin L ratio H HL)). set (all := filter _ _).
  assert (I : forall s, In s all <-> (1 <= s <= E * T)%nat /\ cyclical_due L thin ratio s). { intros s. unfold all. rewrite filter_In, in_seq, cyc_due by assumption. intuition lia. }
  destruct (Nat.ltb_spec (length all) n) as [A|A]; split; intros X; try discriminate; try reflexivity.
  - intros steps ND Q. assert (Y := NoDup_incl_length ND (l' := all)). specialize (Y (fun s Hs => proj2 (I s) (Q s Hs))). lia.
  - exfalso. specialize (X all). assert (ND : NoDup all) by (apply NoDup_filter, seq_NoDup). specialize (X ND (fun s Hs => proj1 (I s) Hs)). lia.
Qed.
