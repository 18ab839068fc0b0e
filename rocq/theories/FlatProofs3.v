From Coq Require Import List Arith Lia Bool String Permutation Sorting.Sorted.
From Verif Require Import Lib NestedModel NestedSpec NestedProofs NestedProofs2 FreezeModel FreezeSpec FreezeProofs LapModel LapSpec LapProofs3 FlatModel FlatSpec FlatProofs FlatProofs2.
Import ListNotations.
Open Scope list_scope.
Local Notation length := List.length.
Local Notation concat := List.concat.

Lemma perm_same_keys {A B} (a b : list (A * B)) : NoDup (map fst a) -> Permutation a b -> map fst a = map fst b -> a = b.
Proof.
  revert b. induction a as [|[k v] a IH]; intros b ND P E. { now apply Permutation_nil in P. }
  destruct b as [|[k' v'] b]; [discriminate|]. cbn [map fst] in *. injection E as <- E. inversion ND as [|? ? N1 N2]; subst.
  assert (X : In (k, v) ((k, v') :: b)) by (apply (Permutation_in _ P); now left). destruct X as [X|X].
  - injection X as <-. f_equal. apply IH; auto. now apply Permutation_cons_inv in P.
  - exfalso. apply N1. rewrite E. now apply (in_map fst) in X.
Qed.

Section State.
Context {V : Type}.
Notation ptree := (tree (list V)).
Implicit Types (t init : ptree) (pos : list (path * list V)).
Definition lp (pv : path * list V) : path * ptree := (fst pv, ltree pv).

Lemma lp_reads t pos : NoDup (map fst pos) -> Forall (fun pv => fst pv <> []) pos -> Forall (fun po => at_path t (fst po) = Some (snd po)) (map lp pos) -> reads t pos.
Proof.
  intros ND N F. split; [exact ND|]. rewrite Forall_map in F. rewrite Forall_forall in *. intros [p v] H. split; [apply (N _ H)|]. apply (F _ H).
Qed.

(** a tree with pairs, separated in any order of the paths *)
Lemma paired m pos decoded l0 l1 : l0 <> l1 -> leaf_paths m (map fst pos) -> Permutation (map fst pos) decoded ->
  exists D d2 pos', nested_pair m (map fst pos) (map ltree pos) [l0; l1] = Ok D /\ Permutation pos pos' /\ map fst pos' = decoded /\
    nested_unpair D decoded [l0; l1] = Ok (m, d2) /\ reads d2 pos'.
Proof.
  intros NE L P. assert (I := leaf_paths_independent m _ L). destruct L as [ND F].
  assert (E1 : map fst (map lp pos) = map fst pos) by (rewrite map_map; reflexivity).
  assert (E2 : map snd (map lp pos) = map ltree pos) by (rewrite map_map; reflexivity).
  destruct (pair_unpair_perm m (map lp pos) decoded l0 l1) as (D & po' & d2 & A & B & C & U & R); auto.
  - now rewrite E1.
  - apply Forall_forall. intros x Hx. rewrite Forall_forall in F. apply (in_map fst) in Hx. apply (eq_ind _ (fun l => In (fst x) l)) with (2 := E1) in Hx. apply (F _ Hx).
  - apply Forall_forall. intros x Hx. rewrite Forall_forall in F. apply (in_map fst) in Hx. apply (eq_ind _ (fun l => In (fst x) l)) with (2 := E1) in Hx. destruct (F _ Hx) as [_ [v Hv]]. congruence.
  - now rewrite E1.
  - destruct (Permutation_map_inv lp pos (Permutation_sym B)) as (pos' & -> & P').
    exists D, d2, pos'. rewrite E1, E2 in A. split; [exact A|]. split; [exact P'|]. split; [rewrite map_map in C; exact C|]. split; [exact U|].
    apply lp_reads; [apply (Permutation_NoDup (Permutation_map fst P') ND)| |exact R].
    apply Forall_forall. intros x Hx. rewrite Forall_forall in F. apply (Permutation_in _ (Permutation_sym P')) in Hx. apply (in_map fst) in Hx. apply (F _ Hx).
Qed.

Lemma state_paths init pos decoded mean log_std : reads init pos -> length mean = total pos -> length log_std = total pos -> Permutation (map fst pos) decoded ->
  exists m state d2 M S, unravel_paths init (map fst pos) mean = Ok m /\ advi_state_paths init (map fst pos) mean log_std = Ok state /\
    nested_unpair state decoded ["mean"; "log_std"]%string = Ok (m, d2) /\
    Permutation (cut pos mean) M /\ map fst M = decoded /\ reads m M /\
    Permutation (cut pos log_std) S /\ map fst S = decoded /\ reads d2 S /\ same_outside (map fst pos) m init.
Proof.
  intros R H1 H2 P. destruct (unravel_paths_ok init pos mean R H1) as (m & Em & Rm & Om & Sm).
  assert (Lm : leaf_paths m (map fst (cut pos log_std))). { rewrite cut_paths, <- (cut_paths pos mean). now apply reads_leaf_paths. }
  assert (P' : Permutation (map fst (cut pos log_std)) decoded) by now rewrite cut_paths.
  destruct (paired m (cut pos log_std) decoded "mean" "log_std" ltac:(discriminate) Lm P') as (D & d2 & S & A & B & C & U & RS).
  assert (PM : Permutation decoded (map fst (cut pos mean))) by (rewrite cut_paths; now symmetry).
  destruct (Permutation_map_inv fst (cut pos mean) PM) as (M & EM & PM').
  exists m, D, d2, M, S. split; [exact Em|]. split.
  { unfold advi_state_paths. rewrite Em. cbn [bind]. rewrite (reads_get init pos R). cbn [bind]. rewrite unravel_list_leaves by assumption. cbn [bind]. rewrite cut_paths in A. exact A. }
  split; [exact U|]. split; [exact PM'|]. split; [now symmetry|]. split; [now apply (reads_perm m (cut pos mean) M PM')|]. auto.
Qed.
Lemma cut_total pos l : length l = total pos -> total (cut pos l) = total pos.
Proof. intros H. rewrite !total_sizes, cut_sizes; [reflexivity|lia]. Qed.
Lemma total_perm pos pos' : Permutation pos pos' -> total pos = total pos'.
Proof. unfold total. induction 1; cbn [map concat]; rewrite ?app_length in *; lia. Qed.
Lemma nth_cut pos p i l : nth_error (map fst pos) i = Some p -> nth_error (cut pos l) i = Some (p, slice (map (fun pv => length (snd pv)) pos) i l).
Proof. intros H. rewrite nth_error_map in H. destruct (nth_error pos i) as [[q v]|] eqn:E; [|discriminate]. injection H as <-. now apply (cut_nth pos i l q v). Qed.
Lemma reads_nth t pos i p v : reads t pos -> nth_error pos i = Some (p, v) -> leaf_at t p v.
Proof. intros [_ F] H. apply nth_error_In in H. rewrite Forall_forall in F. apply (F _ H). Qed.
End State.

(** C118, with freeze function, after fit *)
Lemma advi_fitted : forall V (fwd : V -> V -> V -> V) (init : tree (list V)) paths sizes mean log_std noise, arrays_at init paths sizes ->
  length mean = list_sum sizes -> length log_std = list_sum sizes -> length noise = list_sum sizes ->
  exists state sample, advi_state_paths init paths mean log_std = Ok state /\ advi_sample_fitted fwd init paths paths state noise = Ok sample /\
    (forall i p, nth_error paths i = Some p -> exists v, leaf_at sample p v /\ pointwise fwd (slice sizes i mean) (slice sizes i log_std) (slice sizes i noise) v) /\
    same_outside paths sample init.
Proof.
  intros V fwd init paths sizes mean log_std noise AR H1 H2 H3. destruct (arrays_reads _ _ _ AR) as (pos & <- & <- & R). rewrite <- total_sizes in *.
  destruct (state_paths init pos (map fst pos) mean log_std R H1 H2 (Permutation_refl _)) as (m & state & d2 & M & S & Em & Es & Eu & PM & KM & RM & PS & KS & RS & _).
  assert (ND : NoDup (map fst pos)) by apply R.
  assert (M = cut pos mean). { symmetry. apply perm_same_keys; [now rewrite cut_paths|assumption|now rewrite cut_paths]. } subst M.
  assert (S = cut pos log_std). { symmetry. apply perm_same_keys; [now rewrite cut_paths|assumption|now rewrite cut_paths]. } subst S.
  assert (LF : length (forward fwd mean log_std noise) = total pos) by (rewrite forward_length; congruence).
  destruct (unravel_paths_ok init pos (forward fwd mean log_std noise) R LF) as (sample & E & RE & OE & _).
  exists state, sample. split; [exact Es|]. split; [|split; [|exact OE]].
  - unfold advi_sample_fitted, advi_sample_paths. rewrite Eu. cbn [bind fst snd]. rewrite <- KM at 1. rewrite (reads_ravel m _ RM). cbn [bind]. rewrite <- KS at 1. rewrite (reads_ravel d2 _ RS). cbn [bind].
    rewrite !cut_concat by assumption. exact E.
  - intros i p Hp. pose proof (nth_cut pos p i (forward fwd mean log_std noise) Hp) as X. eexists. split; [apply (reads_nth _ _ i p _ RE X)|].
    rewrite total_sizes in *. apply slice_pointwise; try congruence. rewrite map_length. rewrite nth_error_map in Hp. apply nth_error_Some. destruct (nth_error pos i); discriminate.
Qed.

(** after load_state *)
Lemma advi_loaded : forall V (fwd : V -> V -> V -> V) (init : tree (list V)) paths sizes decoded sizes' mean log_std noise,
  arrays_at init paths sizes -> arrays_at init decoded sizes' -> Permutation paths decoded ->
  length mean = list_sum sizes -> length log_std = list_sum sizes -> length noise = list_sum sizes ->
  exists state sample, advi_state_paths init paths mean log_std = Ok state /\ advi_sample_loaded fwd decoded state noise = Ok sample /\
    (forall i j p, nth_error paths i = Some p -> nth_error decoded j = Some p ->
      exists v, leaf_at sample p v /\ pointwise fwd (slice sizes i mean) (slice sizes i log_std) (slice sizes' j noise) v) /\
    same_outside paths sample init.
Proof.
  intros V fwd init paths sizes decoded sizes' mean log_std noise AR AR' P H1 H2 H3. destruct (arrays_reads _ _ _ AR) as (pos & <- & <- & R). destruct (arrays_reads _ _ _ AR') as (pos' & <- & <- & R').
  rewrite <- total_sizes in *.
  destruct (state_paths init pos (map fst pos') mean log_std R H1 H2 P) as (m & state & d2 & M & S & Em & Es & Eu & PM & KM & RM & PS & KS & RS & OM).
  assert (ND : NoDup (map fst pos)) by apply R.
  assert (TM : total M = total pos) by (rewrite <- (total_perm _ _ PM); now apply cut_total).
  assert (TS : total S = total pos) by (rewrite <- (total_perm _ _ PS); now apply cut_total).
  assert (J : forall i j p, nth_error (map fst pos) i = Some p -> nth_error (map fst pos') j = Some p ->
     nth_error M j = Some (p, slice (map (fun pv => length (snd pv)) pos) i mean) /\ nth_error S j = Some (p, slice (map (fun pv => length (snd pv)) pos) i log_std)).
  { assert (G : forall l N, Permutation (cut pos l) N -> map fst N = map fst pos' -> forall i j p, nth_error (map fst pos) i = Some p -> nth_error (map fst pos') j = Some p ->
       nth_error N j = Some (p, slice (map (fun pv => length (snd pv)) pos) i l)).
    { intros l N PN KN i j p Hi Hj. pose proof (nth_cut pos p i l Hi) as X. apply nth_error_In in X. apply (Permutation_in _ PN) in X.
      rewrite <- KN in Hj. rewrite nth_error_map in Hj. destruct (nth_error N j) as [[q v]|] eqn:EN; [|discriminate]. injection Hj as <-. f_equal. f_equal.
      assert (NDN : NoDup (map fst N)). { apply (Permutation_NoDup (Permutation_map fst PN)). now rewrite cut_paths. }
      apply nth_error_In in EN. clear - X EN NDN. induction N as [|[a b] N IH]; [contradiction|]. cbn [map fst] in NDN. inversion NDN as [|? ? N1 N2]; subst.
      destruct X as [X|X], EN as [Y|Y].
      - congruence.
      - injection X as -> _. exfalso. apply N1. now apply (in_map fst) in Y.
      - injection Y as -> _. exfalso. apply N1. now apply (in_map fst) in X.
      - now apply IH. }
    intros i j p Hi Hj. split; apply G; assumption. }
  assert (SZ : map (fun pv => length (snd pv)) M = map (fun pv => length (snd pv)) pos' /\ map (fun pv => length (snd pv)) S = map (fun pv => length (snd pv)) pos').
  { assert (LM : length M = length pos') by (apply (f_equal (@length _)) in KM; now rewrite !map_length in KM).
    assert (LS : length S = length pos') by (apply (f_equal (@length _)) in KS; now rewrite !map_length in KS).
    assert (X : forall N : list (path * list V), length N = length pos' -> (forall j p v w, nth_error N j = Some (p, v) -> nth_error pos' j = Some (p, w) -> length v = length w) -> map fst N = map fst pos' -> map (fun pv => length (snd pv)) N = map (fun pv => length (snd pv)) pos').
    { clear. intros N. revert pos'. induction N as [|[p v] N IH]; intros [|[q w] pos'] L H K; cbn [map fst snd] in *; try discriminate; [reflexivity|]. injection K as <- K.
      rewrite (H 0 p v w eq_refl eq_refl). f_equal. apply IH; [now injection L|intros j; apply (H (Datatypes.S j))|exact K]. }
    assert (Y : forall l (N : list (path * list V)), length l = total pos -> (forall i j p, nth_error (map fst pos) i = Some p -> nth_error (map fst pos') j = Some p -> nth_error N j = Some (p, slice (map (fun pv => length (snd pv)) pos) i l)) ->
      forall j p v w, nth_error N j = Some (p, v) -> nth_error pos' j = Some (p, w) -> length v = length w).
    { intros l N HL HN j p v w Hv Hw.
      assert (Hj : nth_error (map fst pos') j = Some p) by (rewrite nth_error_map, Hw; reflexivity).
      assert (Hi : In p (map fst pos)). { apply (Permutation_in _ (Permutation_sym P)). now apply nth_error_In in Hj. }
      apply In_nth_error in Hi. destruct Hi as [i Hi]. rewrite (HN i j p Hi Hj) in Hv. injection Hv as <-.
      pose proof Hi as Hi'. rewrite nth_error_map in Hi'. destruct (nth_error pos i) as [[q x]|] eqn:Ei; [|discriminate]. injection Hi' as ->.
      assert (x = w). { pose proof (reads_nth _ _ _ _ _ R Ei) as A. pose proof (reads_nth _ _ _ _ _ R' Hw) as B. unfold leaf_at in *. congruence. } subst x.
      rewrite slice_length; [|rewrite <- total_sizes; lia|rewrite map_length; apply nth_error_Some; congruence].
      apply nth_error_nth. rewrite nth_error_map, Ei. reflexivity. }
    split; apply X; auto; [apply (Y mean M H1)|apply (Y log_std S H2)]; intros i j p Hi Hj; apply (J i j p Hi Hj). }
  destruct SZ as [SM SS].
  set (mv := concat (map snd M)). set (sv := concat (map snd S)).
  assert (Lm : length mv = total pos) by exact TM. assert (Ls : length sv = total pos) by exact TS.
  assert (LF : length (forward fwd mv sv noise) = total M) by (rewrite forward_length; congruence).
  destruct (unravel_paths_ok m M (forward fwd mv sv noise) RM LF) as (sample & E & RE & OE & _).
  exists state, sample. split; [exact Es|]. split; [|split].
  - unfold advi_sample_loaded, advi_sample_paths. rewrite Eu. cbn [bind fst snd]. rewrite <- KM at 1. rewrite (reads_ravel m _ RM). cbn [bind]. rewrite <- KS at 1. rewrite (reads_ravel d2 _ RS). cbn [bind].
    rewrite <- KM. exact E.
  - intros i j p Hi Hj. destruct (J i j p Hi Hj) as [JM JS].
    assert (Hj' : nth_error (map fst M) j = Some p) by now rewrite KM.
    pose proof (nth_cut M p j (forward fwd mv sv noise) Hj') as X. eexists. split; [apply (reads_nth _ _ j p _ RE X)|].
    assert (Sm : slice (map (fun pv => length (snd pv)) pos') j mv = slice (map (fun pv => length (snd pv)) pos) i mean).
    { pose proof (nth_cut M p j mv Hj') as Z. unfold mv in Z. rewrite cut_self, JM, SM in Z. now injection Z. }
    assert (Ss : slice (map (fun pv => length (snd pv)) pos') j sv = slice (map (fun pv => length (snd pv)) pos) i log_std).
    { assert (Hk : nth_error (map fst S) j = Some p) by now rewrite KS. pose proof (nth_cut S p j sv Hk) as Z. unfold sv in Z. rewrite cut_self, JS, SS in Z. now injection Z. }
    rewrite SM, <- Sm, <- Ss. apply slice_pointwise; try congruence.
    + rewrite Lm, <- TM, total_sizes, SM. reflexivity.
    + rewrite map_length. rewrite nth_error_map in Hj. apply nth_error_Some. destruct (nth_error pos' j); discriminate.
  - intros q w NI. rewrite KM in OE. rewrite (OE q w); [apply OM; exact NI|]. intros X. apply NI. apply (Permutation_in _ (Permutation_sym P) X).
Qed.
