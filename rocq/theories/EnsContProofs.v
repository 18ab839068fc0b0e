(** Proofs about continued fits of ensembles. *)
From Coq Require Import List Arith Lia Bool String.
From Verif Require Import Lib NestedModel NestedSpec FreezeModel FreezeSpec FreezeProofs EnsModel EnsSpec EnsProofs ContModel ContSpec ContProofs EnsContModel EnsContSpec NestedProofs2.
Import ListNotations.
Open Scope list_scope.
Local Notation length := List.length.

Section EnsCont.
Context {V M C B O OS L : Type}.
Variable o_init : O -> tree V -> OS.
Variable o_update : O -> tree V -> OS -> tree V -> result (tree V * OS).
Variable loss : nat -> tree V -> option M -> C -> B -> nat -> L * option M.
Variable diff : (tree V -> L) -> tree V -> tree V.
Variable gadd : tree V -> tree V -> result (tree V).
Variable gdiv : nat -> tree V -> tree V.
Variable zeros : tree V -> tree V.
Notation tstate := (tstate V M C O OS).
Notation run := (train_run o_update loss diff gadd gdiv zeros).
Notation mapfit := (map_fit o_init o_update loss diff gadd gdiv zeros).
Notation frzopt := (freeze_optimizer_in_state o_init).
Notation continue := (continue_fit o_init o_update loss diff gadd gdiv zeros).
Notation allfits := (fits o_init o_update loss diff gadd gdiv zeros).
Notation one := (continue_members o_init o_update loss diff gadd gdiv zeros).
Notation many := (continue_ensemble o_init o_update loss diff gadd gdiv zeros).
Notation ensemble := (ensemble_fit o_init o_update loss diff gadd gdiv zeros).

Lemma mapM_iff {A R} (g : A -> result R) l rs : mapM g l = Ok rs <-> length rs = length l /\ forall i a, nth_error l i = Some a -> exists x, g a = Ok x /\ nth_error rs i = Some x.
Proof.
  split; [apply mapM_nth|]. revert rs. induction l as [|a l IH]; intros rs [E H]; [now destruct rs|]. destruct rs as [|r rs]; [discriminate|]. cbn [mapM].
  destruct (H 0 a eq_refl) as (x & Gx & Ex). injection Ex as ->. rewrite Gx. cbn [bind]. rewrite (IH rs); [reflexivity|]. split; [now injection E|]. intros i b Hb. exact (H (S i) b Hb).
Qed.
Lemma nth_error_ext_of {X} (l m : list X) : length l = length m -> (forall i x, nth_error l i = Some x -> nth_error m i = Some x) -> l = m.
Proof. revert m. induction l as [|x l IH]; intros [|y m] E H; try discriminate; [reflexivity|]. f_equal; [now injection (H 0 x eq_refl)|]. apply IH; [now injection E|]. intros i z Hz. exact (H (S i) z Hz). Qed.
Lemma mapM_total_of {A R} (g : A -> result R) l : (forall a, In a l -> exists x, g a = Ok x) -> exists rs, mapM g l = Ok rs.
Proof.
  induction l as [|a l IH]; intros H; [now exists []|]. cbn [mapM]. destruct (H a (or_introl eq_refl)) as [x ->]. destruct IH as [rs ->]; [intros b I; apply H; now right|]. cbn [bind]. eauto.
Qed.
Lemma nth_pairs {X} (l : list X) j x : nth_error l j = Some x <-> nth_error (combine (seq 0 (length l)) l) j = Some (j, x).
Proof.
  enough (G : forall i, nth_error l j = Some x <-> nth_error (combine (seq i (length l)) l) j = Some (i + j, x)) by apply (G 0). revert j. induction l as [|y l IH]; intros [|j] i; cbn; [split; discriminate|split; discriminate| |].
  - rewrite Nat.add_0_r. split; intros H; injection H as <-; reflexivity.
  - rewrite (IH j (S i)). now replace (S i + j) with (i + S j) by lia.
Qed.
Lemma one_iff a r (ms ms' : list tstate) : one a r ms = Ok ms' <-> length ms' = length ms /\
  forall j s, nth_error ms j = Some s -> exists s', continue (e_cfg a) (r + j) (e_passes a j) (e_file a) s = Ok s' /\ nth_error ms' j = Some s'.
Proof.
  unfold continue_members. rewrite mapM_iff, combine_length, seq_length, Nat.min_id. split; intros [E H]; (split; [exact E|]).
  - intros j s Hs. exact (H j (j, s) (proj1 (nth_pairs ms j s) Hs)).
  - intros j [i s] Hs. assert (i = j) as ->.
    { assert (Lj : j < length ms). { assert (N := nth_error_Some (combine (seq 0 (length ms)) ms) j). rewrite Hs, combine_length, seq_length, Nat.min_id in N. now apply N. }
      destruct (nth_error ms j) as [x|] eqn:E1; [|apply nth_error_None in E1; lia]. apply nth_pairs in E1. congruence. }
    apply (H j s). now apply nth_pairs.
Qed.
Theorem members_alone (l : list (ens_args V B O)) : forall r (ms ms' : list tstate), many l r ms = Ok ms' <-> length ms' = length ms /\
  forall j s, nth_error ms j = Some s -> exists s', allfits (own_fits (length ms) j l r) s = Ok s' /\ nth_error ms' j = Some s'.
Proof.
  induction l as [|a l IH]; intros r ms ms'; cbn [continue_ensemble own_fits fits a_cfg a_run a_batches a_file].
  - split.
    + intros H. injection H as <-. split; [reflexivity|]. intros j s Hs. exists s. auto.
    + intros [E H]. f_equal. apply (nth_error_ext_of ms ms'); [congruence|]. intros j s Hs. destruct (H j s Hs) as (s' & Es & Hs'). congruence.
  - split.
    + intros H. destruct (one a r ms) as [m1|] eqn:E1; [|discriminate]. cbn [bind] in H. apply one_iff in E1. destruct E1 as [L1 H1]. rewrite IH in H. destruct H as [L2 H2]. split; [congruence|].
      intros j s Hs. destruct (H1 j s Hs) as (s1 & C1 & N1). rewrite C1. cbn [bind]. destruct (H2 j s1 N1) as (s2 & C2 & N2). rewrite L1 in C2. exists s2. auto.
    + intros [E H]. assert (X : exists m1, one a r ms = Ok m1).
      { unfold continue_members. apply mapM_total_of. intros [i s] I. apply In_nth_error in I. destruct I as [j Hj]. assert (i = j /\ nth_error ms j = Some s) as [-> Hs].
        { assert (Lj : j < length ms). { assert (N := nth_error_Some (combine (seq 0 (length ms)) ms) j). rewrite Hj, combine_length, seq_length, Nat.min_id in N. now apply N. }
          destruct (nth_error ms j) as [x|] eqn:Ex; [|apply nth_error_None in Ex; lia]. apply nth_pairs in Ex. rewrite Hj in Ex. injection Ex as -> ->. auto. }
        destruct (H j s Hs) as (s' & Es & _). cbn [fst snd]. destruct (continue _ _ _ _ s) as [s1|]; [eauto|discriminate]. }
      destruct X as [m1 E1]. rewrite E1. cbn [bind]. apply one_iff in E1. destruct E1 as [L1 H1]. rewrite IH. split; [congruence|]. intros j s1 N1.
      destruct (nth_error ms j) as [s|] eqn:Es; [|apply nth_error_None in Es; assert (Y : j < length m1) by (apply nth_error_Some; congruence); lia].
      destruct (H1 j s Es) as (s1' & C1 & N1'). assert (s1' = s1) as -> by congruence. destruct (H j s Es) as (s' & F & N). rewrite C1 in F. cbn [bind] in F. rewrite L1. exists s'. auto.
Qed.

(** ---- after a first fit with frozen parameters ---- *)
Lemma own_fits_in size j l r x : In x (own_fits (V := V) (B := B) (O := O) size j l r) -> exists a, In a l /\ a_cfg x = e_cfg a.
Proof. revert r. induction l as [|a l IH]; intros r I; [destruct I|]. destruct I as [<-|I]; [exists a; split; [now left|reflexivity]|]. destruct (IH _ I) as (a0 & I0 & E0). exists a0. split; [now right|exact E0]. Qed.
Lemma own_fits_batches size j l r : map (fun a => length (a_batches a)) (own_fits (V := V) (B := B) (O := O) size j l r) = map (fun a => length (e_passes a j)) l.
Proof. revert r. induction l as [|a l IH]; intros r; [reflexivity|]. cbn [own_fits map a_batches]. now rewrite IH. Qed.
Lemma run_structure cfg r bs (s0 s1 s' : tstate) o : t_tx s0 = Some o -> keeps_structure (o_update o) -> parameters (t_params s0) -> frzopt cfg s0 = Ok s1 -> run cfg r bs s1 = Ok s' ->
  parameters (t_params s') /\ t_step s' = t_step s0 + length bs.
Proof.
  intros T KS [U D] E H. destruct (frzopt_kept o_init _ _ _ E) as (K1 & K2 & K3 & K4 & _). rewrite T in K1. unfold train_run in H. destruct (fc_freeze cfg) as [f|] eqn:F.
  - destruct (on_train_start (t_params s1) f) as [[fr tr]|] eqn:Es; [|discriminate]. cbn [bind] in H. destruct (foldM _ bs _) as [s2|] eqn:Ef; [|discriminate]. cbn [bind] in H. injection H as <-.
    rewrite K4 in Es. destruct (split_spec f (t_params s0) fr tr U D Es) as (Lab & Ufr & Utr & Dfr & Dtr & LF & LT & _).
    destruct (steps_structure o_update loss diff gadd gdiv zeros cfg r (Some fr) bs o KS (with_params tr s1) s2 K1 Utr Ef) as (U2 & S2 & N2). cbn [with_params t_params t_step] in *. split; [|congruence].
    split. { apply update1_unique; assumption. }
    destruct Dfr as [kf ->]. destruct Dtr as [kt ->]. specialize (S2 []). cbn [at_path] in S2. destruct (t_params s2) as [|k2]; [contradiction|]. unfold get_all_params, nested_update. cbn [fold_left]. rewrite update1_dict. eexists. reflexivity.
  - destruct (steps_structure o_update loss diff gadd gdiv zeros _ _ _ _ _ KS _ _ K1 (eq_ind_r unique_keys U K4) H) as (U2 & S2 & N2). rewrite K4 in S2. split; [|congruence].
    split; [exact U2|]. destruct D as [k Ek]. specialize (S2 []). rewrite Ek in S2. cbn [at_path] in S2. destruct (t_params s') as [|k']; [contradiction|eauto].
Qed.
Theorem frozen_through cfg p f random passes size ms mst (l : list (ens_args V B O)) r ms' :
  fc_freeze cfg = Some f -> by_path f -> fc_accumulation cfg <= 1 -> pr_dumped p = false -> keeps_structure (o_update (fc_method (pr_cfg p))) ->
  (forall a, In a l -> keeps_structure (o_update (fc_method (e_cfg a)))) ->
  ensemble cfg (Some p) random passes size = Ok ms -> mapfit (pr_cfg p) 0 (pr_batches p) (random 0) = Ok mst -> parameters (t_params mst) -> labelled f (t_params mst) ->
  (forall j, j < size -> same_structure (t_params mst) (st_params (random (S j)))) -> many l r ms = Ok ms' ->
  length ms' = size /\ forall j, j < size -> exists s, nth_error ms' j = Some s /\
    t_step s = t_step mst + length (passes j) + list_sum (map (fun a => length (e_passes a j)) l) /\
    forall q v, leaf_at (t_params mst) q v -> f q v = "frozen"%string -> (forall a, In a l -> exists g, fc_freeze (e_cfg a) = Some g /\ g q v = "frozen"%string) -> leaf_at (t_params s) q v.
Proof.
  intros FF BP K ND KS KL H Em P Lab SS HM. destruct (frozen_members o_init o_update loss diff gadd gdiv zeros cfg p f random passes size ms FF BP K ND KS H) as (mst' & Em' & Ln & Fz). assert (mst' = mst) as -> by congruence. clear Em'.
  apply members_alone in HM. destruct HM as [L2 HM]. split; [congruence|]. intros j Hj. destruct (Fz P Lab j Hj (SS j Hj)) as (s1 & fr & tr & tr' & N1 & _ & _ & _ & _ & Fr & _).
  destruct (HM j s1 N1) as (s2 & C2 & N2). exists s2. split; [exact N2|].
  assert (P1 : parameters (t_params s1) /\ t_step s1 = t_step mst + length (passes j)).
  { unfold ensemble_fit, run_preliminary in H. rewrite FF, Em in H. cbn [rmap bind] in H. rewrite ND in H. cbn [read_back] in H. destruct (mapM_nth _ _ _ H) as [_ N]. destruct (N j j (nth_seq0 size j Hj)) as (s & Es & En). unfold runs_before in Es. rewrite FF in Es. cbn [Nat.add] in Es. cbv zeta in Es.
    assert (s = s1) as -> by congruence. unfold member_fit, init_map_state in Es. rewrite FF in Es. destruct (init_member (t_params mst) (st_params (random (S j))) f) as [st|] eqn:Ei; [|discriminate]. cbn [bind] in Es.
    destruct (frzopt cfg (with_params st mst)) as [s0|] eqn:Ez; [|discriminate]. cbn [bind] in Es. destruct (init_member_spec f BP _ _ _ P (SS j Hj) Lab Ei) as (Ps & _). destruct (map_kept o_init o_update loss diff gadd gdiv zeros _ _ _ _ _ Em) as [Tm _].
    exact (run_structure cfg (S j) (passes j) (with_params st mst) s0 s1 (fc_method (pr_cfg p)) Tm KS Ps Ez Es). }
  destruct P1 as [P1 S1]. destruct (fits_kept o_init o_update loss diff gadd gdiv zeros (own_fits (length ms) j l r) s1 s2) as (_ & _ & St & _ & Fk); [|exact P1|exact C2|].
  { intros x Hx. destruct (own_fits_in _ _ _ _ _ Hx) as (a & Ia & ->). now apply KL. }
  rewrite own_fits_batches in St. split; [rewrite St, S1; reflexivity|]. intros q v Hq Hf Hl. apply Fk; [now apply Fr|]. intros x Hx. destruct (own_fits_in _ _ _ _ _ Hx) as (a & Ia & ->). now apply Hl.
Qed.
End EnsCont.
