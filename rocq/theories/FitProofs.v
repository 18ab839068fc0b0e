From Coq Require Import List Arith Lia Bool String.
From Verif Require Import Lib NestedModel RepoModel FitModel FitSpec.
Import ListNotations.
Open Scope list_scope.
Local Notation length := List.length.

Lemma run_events_snoc es : forall t e h, run_events t (es ++ [e]) h = run_event (t + length es) e (run_events t es h).
Proof.
  induction es as [|a es IH]; intros t e h; simpl.
  - now rewrite Nat.add_0_r.
  - rewrite IH. f_equal. lia.
Qed.

Lemma set_nth_length {A} i (x : A) l : length (set_nth i x l) = length l.
Proof.
  unfold set_nth. rewrite app_length, firstn_length. pose proof (skipn_length i l) as S.
  destruct (skipn i l); simpl in *; lia.
Qed.
Lemma set_nth_same {A} i (x : A) l : i < length l -> nth_error (set_nth i x l) i = Some x.
Proof.
  intros L. unfold set_nth. rewrite nth_error_app2; rewrite firstn_length; [|lia].
  replace (i - Nat.min i (length l)) with 0 by lia.
  pose proof (skipn_length i l) as S. destruct (skipn i l); simpl in *; [lia|reflexivity].
Qed.
Lemma set_nth_other {A} i j (x : A) l : i <> j -> nth_error (set_nth i x l) j = nth_error l j.
Proof.
  intros N. destruct (lt_dec i (length l)) as [L|L].
  - rewrite <- (firstn_skipn i l) at 2. unfold set_nth. pose proof (skipn_length i l) as S.
    destruct (skipn i l) as [|y r] eqn:E; [simpl in S; lia|].
    destruct (lt_dec j (length (firstn i l))) as [J|J].
    + now rewrite !nth_error_app1.
    + rewrite !nth_error_app2 by lia. rewrite firstn_length in *.
      replace (Nat.min i (length l)) with i in * by lia.
      destruct (j - i) as [|m] eqn:D; [lia|reflexivity].
  - unfold set_nth. rewrite firstn_all2, skipn_all2 by lia. now rewrite app_nil_r.
Qed.

Lemma program_snoc n es e : program n (es ++ [e]) <-> program n es /\ refers n es e.
Proof.
  split.
  - intros P. split.
    + intros b x a E. apply (P b x (a ++ [e])). rewrite E. now rewrite <- app_assoc.
    + apply (P es e []). reflexivity.
  - intros [P R] b x a E. destruct a as [|y a] using rev_ind.
    + apply app_inj_tail in E. destruct E as [<- <-]. exact R.
    + rewrite app_comm_cons, app_assoc in E. apply app_inj_tail in E. destruct E as [E _]. now apply (P b x a).
Qed.

Lemma asked_methods_snoc es e : asked_methods (es ++ [e]) = asked_methods es ++ match e with NewOptimizer n => [Given n] | _ => [] end.
Proof. unfold asked_methods. rewrite flat_map_app. simpl. now rewrite app_nil_r. Qed.
Lemma asked_configs_snoc n es e : asked_configs n (es ++ [e]) = asked_configs n es ++
  match e with NewConfig o cbs => [(match o with Some o => o | None => 0 end, match cbs with Some l => l | None => [] end)] | _ => [] end.
Proof. unfold asked_configs. rewrite flat_map_app. simpl. now rewrite app_nil_r, app_assoc. Qed.

Lemma asked_configs_bound n es : program n es -> forall c o cbs, nth_error (asked_configs n es) c = Some (o, cbs) -> o < length (asked_methods es).
Proof.
  induction es as [|e es IH] using rev_ind; intros P c o cbs.
  - unfold asked_configs. simpl. rewrite app_nil_r. intros H. apply nth_error_In in H. apply repeat_spec in H.
    inversion H; subst. simpl. lia.
  - apply program_snoc in P. destruct P as [P R]. rewrite asked_configs_snoc, asked_methods_snoc, app_length.
    intros H. destruct (lt_dec c (length (asked_configs n es))) as [L|L].
    + rewrite nth_error_app1 in H by exact L. specialize (IH P _ _ _ H). lia.
    + rewrite nth_error_app2 in H by lia. destruct e as [m|o' cbs'|k c']; try (destruct (c - _); discriminate).
      destruct (c - _) as [|x]; [|destruct x; discriminate]. simpl in H. injection H as <- <-.
      destruct o' as [o'|]; cbn [refers] in R; [lia|]. unfold asked_methods. simpl. lia.
Qed.

Lemma overwrites_snoc_old n es e t o : t < length es ->
  (forall c, match nth_error es t with Some (Fit _ c') => c = c' -> c < length (asked_configs n es) | _ => True end) ->
  overwrites n (es ++ [e]) t o <-> overwrites n es t o.
Proof.
  intros L W. unfold overwrites. rewrite nth_error_app1 by exact L. rewrite asked_configs_snoc.
  split; intros (k & c & cbs & E & K & A); exists k, c, cbs; (split; [exact E|split; [exact K|]]).
  - specialize (W c). rewrite E in W. rewrite nth_error_app1 in A by (apply W; reflexivity). exact A.
  - rewrite nth_error_app1; [exact A|]. apply nth_error_Some. congruence.
Qed.
Lemma program_fit n es : program n es -> forall t k c, nth_error es t = Some (Fit k c) -> c < length (asked_configs n es).
Proof.
  intros P t k c E. apply nth_error_split in E. destruct E as (l1 & l2 & E & _). specialize (P _ _ _ E). simpl in P.
  rewrite E. unfold asked_configs in *. rewrite flat_map_app, !app_length in *. lia.
Qed.
Lemma overwrites_old n es e t o : program n es -> t < length es -> overwrites n (es ++ [e]) t o <-> overwrites n es t o.
Proof.
  intros P L. apply overwrites_snoc_old; [exact L|]. intros c. destruct (nth_error es t) as [[| |k c']|] eqn:E; try exact I.
  intros ->. now apply (program_fit n es P t k).
Qed.
Lemma overwrites_bound n es t o : overwrites n es t o -> t < length es.
Proof. intros (k & c & cbs & E & _). apply nth_error_Some. congruence. Qed.
Lemma overwrites_new n es k c o : c < length (asked_configs n es) ->
  overwrites n (es ++ [Fit k c]) (length es) o <-> (k = FitSghmc \/ k = FitCyclical) /\ exists cbs, nth_error (asked_configs n es) c = Some (o, cbs).
Proof.
  intros L. unfold overwrites. rewrite nth_error_app2, Nat.sub_diag by lia. rewrite asked_configs_snoc, app_nil_r. simpl. split.
  - intros (k' & c' & cbs & E & K & A). injection E as <- <-. split; [exact K|eauto].
  - intros [K [cbs A]]. exists k, c, cbs. auto.
Qed.

(** the optimizers of the heap *)
Definition opt_inv (n : nat) (es : list event) (o : nat) (m : method) : Prop :=
  ((forall t, ~ overwrites n es t o) /\ nth_error (asked_methods es) o = Some m) \/
  (exists t, m = Integrator t /\ overwrites n es t o /\ forall t', t < t' -> ~ overwrites n es t' o).
Definition cb_list (o : option (list callback)) := match o with None => [] | Some l => l end.
Definition inv (n : nat) (es : list event) (h : heap) : Prop :=
  length (h_optimizers h) = length (asked_methods es) /\
  (forall o m, nth_error (h_optimizers h) o = Some m -> opt_inv n es o m) /\
  map (fun c => (cf_optimizer c, cb_list (cf_callbacks c))) (h_configs h) =
  map (fun ic => (fst (snd ic), snd (snd ic) ++ map ResetCovariance (sngp_fits es (fst ic))))
    (combine (seq 0 (length (asked_configs n es))) (asked_configs n es)).

Lemma sngp_fits_snoc es e c : sngp_fits (es ++ [e]) c = sngp_fits es c ++ match e with Fit FitSngp c' => if c' =? c then [length es] else [] | _ => [] end.
Proof.
  unfold sngp_fits. rewrite app_length. simpl. rewrite Nat.add_1_r, seq_S, filter_app. simpl. f_equal.
  - apply filter_ext_in. intros t H. apply in_seq in H. now rewrite nth_error_app1 by lia.
  - rewrite nth_error_app2, Nat.sub_diag by lia. simpl. destruct e as [| |k c']; try reflexivity.
    now destruct k.
Qed.

Lemma nth_combine_seq {A} (l : list A) : forall s i, nth_error (combine (seq s (length l)) l) i = option_map (fun x => (s + i, x)) (nth_error l i).
Proof.
  induction l as [|a l IH]; intros s i; simpl; [now destruct i|].
  destruct i as [|i]; simpl; [now rewrite Nat.add_0_r|]. rewrite IH. destruct (nth_error l i); simpl; [|reflexivity].
  do 2 f_equal. lia.
Qed.
Lemma list_ext {A} (l l' : list A) : (forall i, nth_error l i = nth_error l' i) -> l = l'.
Proof.
  revert l'. induction l as [|a l IH]; intros [|b l'] H.
  - reflexivity.
  - specialize (H 0). discriminate.
  - specialize (H 0). discriminate.
  - pose proof (H 0) as H0. simpl in H0. injection H0 as <-. f_equal. apply IH. intros i. exact (H (S i)).
Qed.

Definition cfg_view (c : config) := (cf_optimizer c, cb_list (cf_callbacks c)).
Definition asked_view (es : list event) (l : list (nat * list callback)) :=
  map (fun ic : nat * (nat * list callback) => (fst (snd ic), snd (snd ic) ++ map ResetCovariance (sngp_fits es (fst ic)))) (combine (seq 0 (length l)) l).
Lemma asked_view_nth es l i : nth_error (asked_view es l) i = option_map (fun x => (fst x, snd x ++ map ResetCovariance (sngp_fits es i))) (nth_error l i).
Proof. unfold asked_view. rewrite nth_error_map, nth_combine_seq. now destruct (nth_error l i). Qed.

Lemma sngp_none n es c : program n es -> length (asked_configs n es) <= c -> sngp_fits es c = [].
Proof.
  intros P L. unfold sngp_fits. induction (seq 0 (length es)) as [|t r IH]; simpl; [reflexivity|].
  destruct (nth_error es t) as [[| |k c']|] eqn:E; try exact IH.
  pose proof (program_fit n es P t k c' E). destruct k; try exact IH. destruct (Nat.eqb_spec c' c); [lia|exact IH].
Qed.

Lemma opt_inv_snoc_keep n es e o m : program n es -> (forall o', ~ overwrites n (es ++ [e]) (length es) o' \/ o' <> o) ->
  o < length (asked_methods es) -> opt_inv n es o m -> opt_inv n (es ++ [e]) o m.
Proof.
  intros P N L [[H A]|(t & -> & H & Last)].
  - left. split.
    + intros t W. pose proof (overwrites_bound _ _ _ _ W) as B. rewrite app_length in B. simpl in B.
      destruct (Nat.eq_dec t (length es)) as [->|D]; [destruct (N o); [contradiction|congruence]|].
      apply (overwrites_old n es e t o P) in W; [|lia]. now apply (H t).
    + rewrite asked_methods_snoc, nth_error_app1 by exact L. exact A.
  - right. exists t. split; [reflexivity|]. pose proof (overwrites_bound _ _ _ _ H) as B. split; [now apply overwrites_old|].
    intros t' T W. pose proof (overwrites_bound _ _ _ _ W) as B'. rewrite app_length in B'. simpl in B'.
    destruct (Nat.eq_dec t' (length es)) as [->|D]; [destruct (N o); [contradiction|congruence]|].
    apply (overwrites_old n es e t' o P) in W; [|lia]. now apply (Last t').
Qed.
Lemma no_write_other n es e : (forall k c, e <> Fit k c) -> forall o, ~ overwrites n (es ++ [e]) (length es) o.
Proof.
  intros N o (k & c & cbs & E & _). rewrite nth_error_app2, Nat.sub_diag in E by lia. simpl in E. injection E as E. now apply (N k c).
Qed.
Lemma no_write_kind n es k c : k <> FitSghmc -> k <> FitCyclical -> forall o, ~ overwrites n (es ++ [Fit k c]) (length es) o.
Proof.
  intros N1 N2 o (k' & c' & cbs & E & K & _). rewrite nth_error_app2, Nat.sub_diag in E by lia. simpl in E. injection E as <- <-.
  destruct K; congruence.
Qed.

Lemma inv_start n : inv n [] (heap0 n).
Proof.
  unfold inv, heap0. simpl. split; [reflexivity|]. split.
  - intros [|o] m H; [|destruct o; discriminate]. simpl in H. injection H as <-. left. split; [|reflexivity].
    intros t (k & c & cbs & E & _). destruct t; discriminate.
  - apply list_ext. intros i. rewrite !nth_error_map. unfold asked_configs. simpl. rewrite app_nil_r. rewrite nth_combine_seq.
    destruct (lt_dec i n) as [L|L].
    + rewrite !(nth_error_repeat) by exact L. simpl. reflexivity.
    + rewrite !(proj2 (nth_error_None _ _)) by (rewrite repeat_length; lia). reflexivity.
Qed.

Lemma cfg_same_view n es e h : program n es -> asked_configs n (es ++ [e]) = asked_configs n es ->
  (forall c, e <> Fit FitSngp c) ->
  map cfg_view (h_configs h) = asked_view es (asked_configs n es) ->
  map cfg_view (h_configs h) = asked_view (es ++ [e]) (asked_configs n (es ++ [e])).
Proof.
  intros P A N H. rewrite A, H. apply list_ext. intros i. rewrite !asked_view_nth, sngp_fits_snoc.
  destruct e as [| |k c]; try (now rewrite app_nil_r). destruct k; try (now rewrite app_nil_r). exfalso. now apply (N c).
Qed.

Lemma inv_keep n es e h : program n es -> asked_configs n (es ++ [e]) = asked_configs n es -> asked_methods (es ++ [e]) = asked_methods es ->
  (forall c, e <> Fit FitSngp c) -> (forall o, ~ overwrites n (es ++ [e]) (length es) o) -> inv n es h -> inv n (es ++ [e]) h.
Proof.
  intros P A M N W (L & I & C). split; [now rewrite M|]. split.
  - intros o m H. apply opt_inv_snoc_keep; [exact P| |rewrite <- L; apply nth_error_Some; congruence|now apply I].
    intros o'. left. apply W.
  - now apply (cfg_same_view n es e h).
Qed.

Lemma inv_step n es e h : program n (es ++ [e]) -> inv n es h -> inv n (es ++ [e]) (run_event (length es) e h).
Proof.
  intros PR (L & I & C). apply program_snoc in PR. destruct PR as [P R].
  change (map cfg_view (h_configs h) = asked_view es (asked_configs n es)) in C.
  destruct e as [m|o cbs|k c]; simpl run_event.
  - (* NewOptimizer *)
    split; [|split].
    + rewrite asked_methods_snoc. simpl h_optimizers. rewrite !app_length. cbn [List.length]. lia.
    + intros o m' H. simpl h_optimizers in H. destruct (lt_dec o (length (h_optimizers h))) as [B|B].
      * rewrite nth_error_app1 in H by exact B. apply opt_inv_snoc_keep; [exact P| |lia|now apply I].
        intros o'. left. apply no_write_other. congruence.
      * rewrite nth_error_app2 in H by lia. destruct (o - length (h_optimizers h)) as [|x] eqn:D; [|destruct x; discriminate].
        simpl in H. injection H as <-. left. split.
        -- intros t (k & c & cbs & E & K & A). rewrite asked_configs_snoc, app_nil_r in A.
           pose proof (asked_configs_bound n es P _ _ _ A). lia.
        -- rewrite asked_methods_snoc, nth_error_app2 by lia. replace (o - length (asked_methods es)) with 0 by lia. reflexivity.
    + apply (cfg_same_view n es (NewOptimizer m) h); [exact P| |congruence|exact C]. now rewrite asked_configs_snoc, app_nil_r.
  - (* NewConfig *)
    split; [|split].
    + rewrite asked_methods_snoc, app_nil_r. exact L.
    + intros o' m' H. simpl h_optimizers in H. apply opt_inv_snoc_keep; [exact P| |rewrite <- L; apply nth_error_Some; congruence|now apply I].
      intros o''. left. apply no_write_other. congruence.
    + simpl h_configs. change (map cfg_view (h_configs h ++ [mk_config match o with Some o0 => o0 | None => 0 end cbs]) =
        asked_view (es ++ [NewConfig o cbs]) (asked_configs n (es ++ [NewConfig o cbs]))).
      rewrite map_app, C. apply list_ext. intros i. rewrite asked_view_nth, sngp_fits_snoc, app_nil_r, asked_configs_snoc.
      assert (LV : length (asked_view es (asked_configs n es)) = length (asked_configs n es)).
      { unfold asked_view. rewrite map_length, combine_length, seq_length. lia. }
      destruct (lt_dec i (length (asked_configs n es))) as [B|B].
      * rewrite !nth_error_app1 by lia. now rewrite asked_view_nth.
      * rewrite !nth_error_app2 by lia. rewrite LV. destruct (i - _) as [|x]; [|destruct x; reflexivity]. simpl.
        unfold cfg_view. simpl. rewrite (sngp_none n es i P) by lia. simpl. rewrite app_nil_r. now destruct cbs.
  - (* Fit *)
    simpl in R.
    assert (NC : exists cf, nth_error (h_configs h) c = Some cf).
    { destruct (nth_error (h_configs h) c) as [cf|] eqn:E; [now exists cf|].
      pose proof (f_equal (fun l => nth_error l c) C) as Ec. simpl in Ec. rewrite nth_error_map, E, asked_view_nth in Ec.
      apply nth_error_None in E. destruct (nth_error (asked_configs n es) c) eqn:X; [discriminate|]. apply nth_error_None in X. lia. }
    destruct NC as [cf Ecf]. pose proof (f_equal (fun l => nth_error l c) C) as Ec. simpl in Ec.
    rewrite nth_error_map, Ecf, asked_view_nth in Ec. simpl in Ec.
    destruct (nth_error (asked_configs n es) c) as [[ao acb]|] eqn:Ea; [|discriminate]. simpl in Ec. injection Ec as Eo Ecb.
    pose proof (asked_configs_bound n es P _ _ _ Ea) as Bo.
    assert (NO : exists m, nth_error (h_optimizers h) (cf_optimizer cf) = Some m).
    { destruct (nth_error (h_optimizers h) (cf_optimizer cf)) as [m|] eqn:E; [now exists m|]. apply nth_error_None in E. lia. }
    destruct NO as [m Em]. unfold run_fit. rewrite Ecf, Em.
    assert (KA : asked_configs n (es ++ [Fit k c]) = asked_configs n es) by now rewrite asked_configs_snoc, app_nil_r.
    assert (KM : asked_methods (es ++ [Fit k c]) = asked_methods es) by now rewrite asked_methods_snoc, app_nil_r.
    assert (WR : k = FitSghmc \/ k = FitCyclical -> inv n (es ++ [Fit k c])
        (mk_heap (set_nth (cf_optimizer cf) (Integrator (length es)) (h_optimizers h)) (h_configs h))).
    { intros K. split; [|split].
      - rewrite KM. simpl h_optimizers. now rewrite set_nth_length.
      - intros o m' H. simpl h_optimizers in H. destruct (Nat.eq_dec (cf_optimizer cf) o) as [<-|D].
        + rewrite set_nth_same in H by lia. injection H as <-. right. exists (length es). split; [reflexivity|]. split.
          * apply overwrites_new; [exact R|]. split; [exact K|]. exists acb. now rewrite Ea, Eo.
          * intros t' T W. pose proof (overwrites_bound _ _ _ _ W) as B. rewrite app_length in B. simpl in B. lia.
        + rewrite set_nth_other in H by exact D. apply opt_inv_snoc_keep; [exact P| |rewrite <- L; apply nth_error_Some; congruence|now apply I].
          intros o'. destruct (Nat.eq_dec o' o) as [->|D']; [left|now right]. intros W. apply (overwrites_new n es k c o R) in W.
          destruct W as [_ [cbs W]]. rewrite Ea in W. injection W as W _. congruence.
      - simpl h_configs. apply (cfg_same_view n es (Fit k c) h); [exact P|exact KA| |exact C]. destruct K; subst; congruence. }
    destruct k; cbn [snd]; try (now apply WR; tauto);
      try (apply inv_keep; [exact P|exact KA|exact KM|congruence|apply no_write_kind; congruence|now repeat split]).
    (* SNGP *)
    split; [|split].
    + rewrite KM. exact L.
    + intros o m' H. simpl h_optimizers in H. apply opt_inv_snoc_keep; [exact P| |rewrite <- L; apply nth_error_Some; congruence|now apply I].
      intros o'. left. apply no_write_kind; congruence.
    + simpl h_configs. change (map cfg_view (set_nth c (mk_config (cf_optimizer cf) (Some (cb_list (cf_callbacks cf) ++ [ResetCovariance (length es)]))) (h_configs h)) =
        asked_view (es ++ [Fit FitSngp c]) (asked_configs n (es ++ [Fit FitSngp c]))).
      rewrite KA. apply list_ext. intros i. rewrite asked_view_nth, nth_error_map, sngp_fits_snoc.
      pose proof (f_equal (fun l => nth_error l i) C) as Ei. simpl in Ei. rewrite nth_error_map, asked_view_nth in Ei.
      destruct (Nat.eqb_spec c i) as [<-|D].
      * rewrite set_nth_same by (apply nth_error_Some; congruence). rewrite Ea. simpl. unfold cfg_view. simpl.
        rewrite Ecb, Eo, map_app, app_assoc. reflexivity.
      * rewrite set_nth_other by exact D. rewrite app_nil_r. exact Ei.
Qed.

Lemma inv_run n es : program n es -> inv n es (run_events 0 es (heap0 n)).
Proof.
  induction es as [|e es IH] using rev_ind; intros P; [apply inv_start|].
  rewrite run_events_snoc. simpl. apply inv_step; [exact P|]. apply IH. now apply program_snoc in P.
Qed.

Lemma config_of n es c o cbs : program n es -> nth_error (asked_configs n es) c = Some (o, cbs) ->
  let h := run_events 0 es (heap0 n) in
  exists cf m, nth_error (h_configs h) c = Some cf /\ cf_optimizer cf = o /\
    cb_list (cf_callbacks cf) = cbs ++ map ResetCovariance (sngp_fits es c) /\
    nth_error (h_optimizers h) o = Some m /\ opt_inv n es o m.
Proof.
  intros P A h. destruct (inv_run n es P) as (L & I & C). fold h in L, I, C.
  change (map cfg_view (h_configs h) = asked_view es (asked_configs n es)) in C.
  pose proof (f_equal (fun l => nth_error l c) C) as Ec. simpl in Ec. rewrite nth_error_map, asked_view_nth, A in Ec. simpl in Ec.
  destruct (nth_error (h_configs h) c) as [cf|]; [|discriminate]. simpl in Ec. injection Ec as Eo Ecb.
  pose proof (asked_configs_bound n es P _ _ _ A) as B.
  destruct (nth_error (h_optimizers h) o) as [m|] eqn:Em; [|apply nth_error_None in Em; lia].
  exists cf, m. repeat split; auto.
Qed.

(** C113 *)
Lemma fit_own : forall n es t k c o cbs m, program n es -> optimizes k -> nth_error (asked_configs n es) c = Some (o, cbs) ->
  nth_error (asked_methods es) o = Some m -> (forall t', ~ overwrites n es t' o) ->
  exists g, fst (run_fit t k c (run_events 0 es (heap0 n))) = Some g /\ g_method g = m.
Proof.
  intros n es t k c o cbs m P K A M N. destruct (config_of n es c o cbs P A) as (cf & m' & E1 & E2 & E3 & E4 & E5).
  unfold run_fit. rewrite E1, E2, E4. destruct E5 as [[_ E5]|(t' & _ & W & _)]; [|now destruct (N t')].
  rewrite M in E5. injection E5 as <-. unfold optimizes in K. simpl in K.
  destruct K as [<-|[<-|[<-|[<-|[<-|[]]]]]]; eexists; split; reflexivity.
Qed.

Lemma fit_leak : forall n es t k c o cbs t0, program n es -> optimizes k -> nth_error (asked_configs n es) c = Some (o, cbs) ->
  overwrites n es t0 o -> (forall t', t0 < t' -> ~ overwrites n es t' o) ->
  exists g, fst (run_fit t k c (run_events 0 es (heap0 n))) = Some g /\ g_method g = Integrator t0.
Proof.
  intros n es t k c o cbs t0 P K A W Last. destruct (config_of n es c o cbs P A) as (cf & m' & E1 & E2 & E3 & E4 & E5).
  unfold run_fit. rewrite E1, E2, E4. destruct E5 as [[N _]|(t' & -> & W' & Last')]; [now destruct (N t0)|].
  assert (t' = t0) as ->.
  { destruct (lt_eq_lt_dec t' t0) as [[L|E]|L]; [now destruct (Last' t0 L)|exact E|now destruct (Last t' L)]. }
  unfold optimizes in K. simpl in K.
  destruct K as [<-|[<-|[<-|[<-|[<-|[]]]]]]; eexists; split; reflexivity.
Qed.

Lemma fit_sgmcmc : forall n es t k c, program n es -> k = FitSghmc \/ k = FitCyclical -> c < length (asked_configs n es) ->
  fst (run_fit t k c (run_events 0 es (heap0 n))) = Some (mk_given (Integrator t) []).
Proof.
  intros n es t k c P K L. destruct (nth_error (asked_configs n es) c) as [[o cbs]|] eqn:A; [|apply nth_error_None in A; lia].
  destruct (config_of n es c o cbs P A) as (cf & m' & E1 & E2 & E3 & E4 & E5).
  unfold run_fit. rewrite E1, E2, E4. destruct K as [-> | ->]; reflexivity.
Qed.

Lemma fit_callbacks : forall n es t k c o cbs, program n es -> optimizes k -> nth_error (asked_configs n es) c = Some (o, cbs) ->
  exists g, fst (run_fit t k c (run_events 0 es (heap0 n))) = Some g /\
    g_callbacks g = cbs ++ map ResetCovariance (sngp_fits es c) ++ match k with FitSngp => [ResetCovariance t] | _ => [] end.
Proof.
  intros n es t k c o cbs P K A. destruct (config_of n es c o cbs P A) as (cf & m' & E1 & E2 & E3 & E4 & E5).
  unfold run_fit. rewrite E1, E2, E4. fold (cb_list (cf_callbacks cf)). rewrite E3. unfold optimizes in K. simpl in K.
  destruct K as [<-|[<-|[<-|[<-|[<-|[]]]]]]; eexists; (split; [reflexivity|]); cbn [g_callbacks]; rewrite ?app_nil_r, <- ?app_assoc; reflexivity.
Qed.
