From Coq Require Import List Arith ZArith QArith Qabs Qminmax Qround Bool Lia Lqa Sorted Permutation.
From Verif Require Import Lib LoaderProofs QuantModel QuantSpec QuantProofs ConfRegModel ConfRegProofs ConfClassModel ConfClassProofs ConfClassProofs2 ConfClassSpec ConfClassProofs3 MultiModel MultiSpec MultiSpec3 MultiProofs MultiProofs2 MultiProofs3 MultiProofs4 MultiProofs5 MultiProofs8 OneShotModel OneShotSpec OneShotProofs OneShotProofs2 IterModel IterSpec IterProofs IterProofs2 IterProofs3 IterProofs4 IterProofs5.
Import ListNotations.
Open Scope Q_scope.

(** ---- objects that can be reached ---- *)
Lemma reached_fields rnd f o : reached rnd f o -> i_patches o <> [] -> exists n pt e, i_n o = Some n /\ (0 < n)%nat /\ i_ptype o = Some pt /\ i_eta o = Some e.
Proof.
  induction 1 as [|o a H IH P]; [intros X; now contradiction X|]. unfold icalibrate.
  destruct (match f with Mvp => outside (a_coverage a) | _ => false end); [exact IH|]. destruct (with_coverage_fields f (a_coverage a) o) as (A & B & C & D).
  destruct (prepare rnd f a) as [[[scores g] vs]|e]; cbn [snd].
  2: { rewrite A, B, C, D. exact IH. }
  destruct (check_bucket_types (a_types a)) as [taus|e].
  - destruct (a_ptype a) as [pt|] eqn:Ep.
    + assert (G : forall ps, exists n pt e, i_n (with_patches ps (with_args a (with_n (a_n a) (with_coverage f (a_coverage a) o)))) = Some n /\ (0 < n)%nat /\
         i_ptype (with_patches ps (with_args a (with_n (a_n a) (with_coverage f (a_coverage a) o)))) = Some pt /\ i_eta (with_patches ps (with_args a (with_n (a_n a) (with_coverage f (a_coverage a) o)))) = Some e).
      { intros ps. cbn. exists (a_n a), pt, (a_eta a). auto. }
      destruct (fit_object rnd f a taus pt scores g vs) as [[r ps]|]; [|intros _; exact (G [])].
      destruct r as [st|e]; [|intros _; apply G]. destruct (given (a_test_groups a) || given (a_test_values a)); intros _; apply G.
    + cbn [snd with_n i_patches i_n i_ptype i_eta]. rewrite A, C, D. intros X. destruct (IH X) as (n & pt & e & _ & _ & Y & Z). exists (a_n a), pt, e. auto.
  - cbn [snd with_n i_patches i_n i_ptype i_eta]. rewrite A, C, D. intros X. destruct (IH X) as (n & pt & e' & _ & _ & Y & Z). exists (a_n a), pt, e'. auto.
Qed.

(** ---- one value through the patches ---- *)
Lemma clamp_in_columns w k p : clamp_key w (k, p) = (in_columns w k, p). Proof. reflexivity. Qed.
Lemma sent_moved (m : method Q) cfg w row : scalar_method m -> (0 < n_buckets cfg)%nat -> forall ps x,
  moved (n_buckets cfg) w (ptype_of cfg) (eta cfg) row ps x (sent m cfg (map (clamp_key w) ps) row x).
Proof.
  intros M N. induction ps as [|[k p] ps IH]; intros x; [constructor|]. cbn [map sent fold_left]. rewrite clamp_in_columns. cbn [fst snd].
  destruct (scalar_patch m cfg (in_columns w k) p [row] [x] 0 row x M N eq_refl eq_refl) as (y & Y & A & B). cbn in Y. injection Y as Y.
  apply (move _ _ _ _ _ k p ps x (apply_patch1 m cfg (in_columns w k) p row x)); [|intros H; rewrite Y; now apply A|apply IH]. intros H. rewrite Y. now apply B.
Qed.
Lemma sent_moved_top cfg w row : (0 < n_buckets cfg)%nat -> forall ps x, (0 < length x)%nat ->
  moved_top (n_buckets cfg) w (ptype_of cfg) (eta cfg) row ps x (sent top_label cfg (map (clamp_key w) ps) row x).
Proof.
  intros N. induction ps as [|[k p] ps IH]; intros x L; [constructor|]. cbn [map sent fold_left]. rewrite clamp_in_columns. cbn [fst snd].
  destruct (top_patch cfg (in_columns w k) p [row] [x] 0 row x N eq_refl eq_refl L) as (y & Y & A & B). cbn in Y. injection Y as Y.
  apply (move_top _ _ _ _ _ k p ps x (apply_patch1 top_label cfg (in_columns w k) p row x)); [|intros H; rewrite Y; now apply A|].
  - intros H. rewrite Y. destruct (B H) as (B1 & B2 & B3 & B4). auto.
  - apply IH. now rewrite (top_keeps cfg (length x)).
Qed.
Lemma meet_cases {A} (groups : list (list bool)) (xs : list A) : (0 < length groups)%nat ->
  (length groups = length xs \/ length groups = 1%nat -> exists gs, meet_rows groups xs = Ok gs /\ length gs = length xs /\
     forall i, (i < length xs)%nat -> nth i gs [] = nth (Nat.min i (length groups - 1)) groups []) /\
  (length groups <> length xs -> length groups <> 1%nat -> meet_rows groups xs = Err (if (length xs =? 1)%nat then IndexError else TypeError)).
Proof.
  intros P. unfold meet_rows. split.
  - intros H. destruct (Nat.eqb_spec (length groups) (length xs)) as [E|E].
    + exists groups. split; [reflexivity|]. split; [exact E|]. intros i Hi. now rewrite Nat.min_l by lia.
    + destruct H as [H|H]; [contradiction|]. rewrite H, Nat.eqb_refl. exists (repeat (hd [] groups) (length xs)). split; [reflexivity|]. split; [apply repeat_length|].
      intros i Hi. rewrite Nat.sub_diag, Nat.min_0_r. rewrite (nth_indep _ [] (hd [] groups)) by (now rewrite repeat_length). rewrite nth_repeat. now destruct groups.
  - intros E1 E2. apply Nat.eqb_neq in E1, E2. rewrite E1, E2. now destruct (length xs =? 1)%nat.
Qed.
Lemma nth_error_zip_sent {V} (m : method V) cfg ps gs xs i x : length gs = length xs -> nth_error xs i = Some x ->
  nth_error (replay m cfg ps gs xs) i = Some (sent m cfg ps (nth i gs []) x).
Proof.
  intros L H. rewrite replay_points by exact L. rewrite zip_nth_error, H. assert (B : (i < length xs)%nat) by (apply nth_error_Some; congruence).
  rewrite (nth_error_nth' gs []) by lia. reflexivity.
Qed.
Section Apply.
Variable rnd : random.
Hypothesis T : tame rnd.
Definition rows_of (f : family) (g : option membership) (v : option array) : array := init_values rnd f v (match g with Some g => length (g_rows g) | None => 0%nat end).
Theorem apply_checks f o g v : reached rnd f o -> (forall m, f = Mc (TopLabel m) -> (0 < m)%nat) -> (forall w, g = Some w -> (0 < length (g_rows w))%nat) ->
  (forall x, v = Some x -> (0 < points x)%nat /\ full_rows x /\ (f = Mvp -> axes x = 1%nat)) ->
  let r := iapply rnd f o g v in
  (g = None -> v = None -> r = Err ValueError) /\
  (i_patches o = [] -> ~ (g = None /\ v = None) -> r = Ok v) /\
  (i_patches o <> [] -> (forall x, v = Some x -> ~ values_fine f x -> r = Err ValueError) /\ (forall w, g = Some w -> ~ proper w -> r = Err ValueError)) /\
  (i_patches o <> [] -> ~ (g = None /\ v = None) -> (forall x, v = Some x -> values_fine f x) -> (forall w, g = Some w -> proper w) ->
     let x := init_values rnd f v (match g with Some w => length (g_rows w) | None => 0%nat end) in
     let w := groups_for g (points x) in
     (length (g_rows w) <> points x -> length (g_rows w) <> 1%nat -> r = Err (if (points x =? 1)%nat then IndexError else TypeError)) /\
     (length (g_rows w) = points x \/ length (g_rows w) = 1%nat ->
        exists out n pt e, r = Ok (Some out) /\ i_n o = Some n /\ i_ptype o = Some pt /\ i_eta o = Some e /\ axes out = axes x /\ points out = points x /\ all_entries in_unit out /\
        match x, out with
        | Vec xs, Vec ys => forall i a, nth_error xs i = Some a -> exists b, nth_error ys i = Some b /\
            moved n (g_width w) pt e (nth (Nat.min i (length (g_rows w) - 1)) (g_rows w) []) (i_patches o) a b
        | Mat xs, Mat ys => forall i a, nth_error xs i = Some a -> exists b, nth_error ys i = Some b /\ length b = length a /\
            moved_top n (g_width w) pt e (nth (Nat.min i (length (g_rows w) - 1)) (g_rows w) []) (i_patches o) a b
        | _, _ => False
        end)).
Proof.
  intros RO M GP VP r. split; [|split; [|split]].
  - intros -> ->. reflexivity.
  - intros P N. unfold r, iapply. rewrite P. destruct g, v; try reflexivity. exfalso. now apply N.
  - intros P. split.
    + intros x -> NF. unfold r, iapply. destruct (i_patches o) as [|p0 ps0]; [contradiction|]. cbn [init_values].
      destruct (vals_cases f x None) as [(E4 & X & _)|(E4 & _)]; [intros ->; destruct (VP x eq_refl) as (_ & _ & X); now apply X|contradiction|]. rewrite E4. now destruct g.
    + intros w -> NP. unfold r, iapply. destruct (i_patches o) as [|p0 ps0]; [contradiction|]. cbn [init_groups].
      assert (Z : check_groups w None = Err ValueError). { destruct (groups_cases w None) as [(_ & X & _)|(E & _)]; [contradiction|exact E]. }
      destruct (check_vals f (init_values rnd f v (length (g_rows w))) None) as [u|e] eqn:E; cbn [bind]; [now rewrite Z|].
      assert (SC : f = Mvp -> axes (init_values rnd f v (length (g_rows w))) = 1%nat). { intros ->. destruct v as [x|]; [|reflexivity]. destruct (VP x eq_refl) as (_ & _ & X). cbn. now apply X. }
      destruct (vals_cases f (init_values rnd f v (length (g_rows w))) None SC) as [(E4 & _)|(E4 & _)]; congruence.
  - intros P N VF GF x w. destruct (reached_fields rnd f o RO P) as (n & pt & e & En & Np & Ept & Ee).
    assert (XF : values_fine f x). { unfold x. destruct v as [x0|]; [now apply VF|]. now apply init_fine. }
    assert (PX : (0 < points x)%nat /\ full_rows x).
    { unfold x. destruct v as [x0|]; [destruct (VP x0 eq_refl) as (A & B & _); now split|]. destruct g as [w0|]; [|exfalso; now apply N]. specialize (GP w0 eq_refl). cbn [init_values].
      destruct f as [[| |m]|]; cbn; rewrite ?repeat_length, ?map_length, ?seq_length; (split; [exact GP|]); try exact I.
      apply Forall_forall. intros row Hr. apply in_map_iff in Hr. destruct Hr as (i & <- & _). destruct (init_row_unit rnd T m (length (g_rows w0)) i (M m eq_refl)) as (_ & _ & L). intros Z. rewrite Z in L. specialize (M m eq_refl). cbn in L. lia. }
    destruct PX as [PX FR].
    assert (WP : (0 < length (g_rows w))%nat). { unfold w. destruct g as [w0|]; [now apply GP|]. cbn. now rewrite repeat_length. }
    assert (WF : check_groups w None = Ok tt). { destruct (groups_cases w None) as [(E & _)|(_ & X)]; [exact E|]. exfalso. apply X. split; [|discriminate]. unfold w. destruct g as [w0|]; [now apply GF|split; reflexivity]. }
    destruct (vals_cases f x None) as [(E4 & _)|(E4 & X)]; [intros ->; apply XF| |exfalso; apply X; split; [exact XF|discriminate]].
    assert (ER : r = match f, x with
      | Mc (TopLabel _), Mat rows => bind (meet_rows (g_rows w) rows) (fun gs => Ok (Some (Mat (replay top_label (object_config n pt e) (map (clamp_key (g_width w)) (i_patches o)) gs rows))))
      | Mc (TopLabel _), Vec _ => Err TypeError
      | Mc _, Vec l => bind (meet_rows (g_rows w) l) (fun gs => Ok (Some (Vec (replay multicalibrator (object_config n pt e) (map (clamp_key (g_width w)) (i_patches o)) gs l))))
      | Mvp, Vec l => bind (meet_rows (g_rows w) l) (fun gs => Ok (Some (Vec (replay (batch_mvp 0) (object_config n pt e) (map (clamp_key (g_width w)) (i_patches o)) gs l))))
      | _, _ => Err TypeError
      end).
    { unfold r, iapply. rewrite En, Ept, Ee. fold x. destruct (i_patches o) as [|p0 ps0]; [contradiction|]. rewrite E4. cbn [bind].
      change (match x with Vec l => length l | Mat rows => length rows end) with (points x). change (init_groups g (points x)) with w. rewrite WF. cbn [bind].
      destruct g, v; try reflexivity. exfalso. now apply N. }
    set (cfg := object_config n pt e) in *. set (ps := map (clamp_key (g_width w)) (i_patches o)) in *.
    assert (SCAL : forall (m : method Q) xs, scalar_method m -> x = Vec xs -> r = bind (meet_rows (g_rows w) xs) (fun gs => Ok (Some (Vec (replay m cfg ps gs xs)))) ->
      (length (g_rows w) <> points x -> length (g_rows w) <> 1%nat -> r = Err (if (points x =? 1)%nat then IndexError else TypeError)) /\
      (length (g_rows w) = points x \/ length (g_rows w) = 1%nat -> exists ys, r = Ok (Some (Vec ys)) /\ length ys = length xs /\ Forall in_unit ys /\
        forall i a, nth_error xs i = Some a -> exists b, nth_error ys i = Some b /\ moved n (g_width w) pt e (nth (Nat.min i (length (g_rows w) - 1)) (g_rows w) []) (i_patches o) a b)).
    { intros m xs SM Ex R. rewrite Ex in *. cbn [points] in *. destruct (meet_cases (g_rows w) xs WP) as [A B]. split; [intros C D; rewrite R, (B C D); reflexivity|]. intros C. destruct (A C) as (gs & G1 & G2 & G3).
      exists (replay m cfg ps gs xs). rewrite R, G1. split; [reflexivity|]. split; [now apply replay_length|]. split; [apply scalar_unit; [exact SM|exact G2|apply XF]|].
      intros i a Hi. exists (sent m cfg ps (nth i gs []) a). split; [now apply nth_error_zip_sent|]. rewrite <- G3 by (apply nth_error_Some; congruence). now apply (sent_moved m cfg). }
    destruct f as [[| |m]|], x as [xs|xs] eqn:Ex; try (destruct XF as [XF _]; discriminate XF).
    + destruct (SCAL multicalibrator xs (or_introl eq_refl) eq_refl ER) as [A B]. split; [exact A|]. intros C. destruct (B C) as (ys & B1 & B2 & B3 & B4). exists (Vec ys), n, pt, e. repeat split; assumption.
    + destruct (SCAL multicalibrator xs (or_introl eq_refl) eq_refl ER) as [A B]. split; [exact A|]. intros C. destruct (B C) as (ys & B1 & B2 & B3 & B4). exists (Vec ys), n, pt, e. repeat split; assumption.
    + cbn [points] in *. destruct (meet_cases (g_rows w) xs WP) as [A B]. split; [intros C D; rewrite ER, (B C D); reflexivity|]. intros C. destruct (A C) as (gs & G1 & G2 & G3).
      exists (Mat (replay top_label cfg ps gs xs)), n, pt, e. rewrite ER, G1. split; [reflexivity|]. repeat split; try assumption; [now apply replay_length|apply top_unit; [exact G2|apply XF]|].
      intros i a Hi. exists (sent top_label cfg ps (nth i gs []) a). split; [now apply nth_error_zip_sent|].
      assert (LA : (0 < length a)%nat). { cbn in FR. rewrite Forall_forall in FR. specialize (FR a (nth_error_In _ _ Hi)). destruct a; [congruence|cbn; lia]. }
      split; [|rewrite <- G3 by (apply nth_error_Some; congruence); now apply (sent_moved_top cfg)].
      clear. generalize (nth i gs []). intros row. revert a. induction ps as [|[k p] l IH]; intros a; [reflexivity|]. cbn [sent fold_left]. fold (sent top_label cfg l row). unfold sent in IH. rewrite IH. now apply top_keeps.
    + destruct (SCAL (batch_mvp 0) xs (or_intror (ex_intro _ 0 eq_refl)) eq_refl ER) as [A B]. split; [exact A|]. intros C. destruct (B C) as (ys & B1 & B2 & B3 & B4). exists (Vec ys), n, pt, e. repeat split; assumption.
Qed.
End Apply.
