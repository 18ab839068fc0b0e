From Coq Require Import List Arith ZArith Bool Reals Lra Lia.
From Verif Require Import Lib TempModel TempSpec TempProofs3 PredSpec PredProofs4 LapModel LapSpec LapProofs2 SngpSpec SngpProofs OodModel OodSpec.
Import ListNotations.
Open Scope R_scope.

Lemma nsum_some {A} (f : A -> R) l : nsum (map (fun x => Some (f x)) l) = Some (rtotal (map f l)).
Proof. induction l as [|x l IH]; [reflexivity|]. cbn [map]. change (nsum (Some (f x) :: map (fun x => Some (f x)) l)) with (nadd (Some (f x)) (nsum (map (fun x => Some (f x)) l))). rewrite IH. reflexivity. Qed.
Lemma nsum_some_in {A} (g : A -> num) (f : A -> R) l : (forall x, In x l -> g x = Some (f x)) -> nsum (map g l) = Some (rtotal (map f l)).
Proof. intros H. rewrite (map_ext_in g (fun x => Some (f x))) by exact H. apply nsum_some. Qed.
Lemma nsum_none {A} (g : A -> num) l x : In x l -> g x = None -> nsum (map g l) = None.
Proof.
  induction l as [|y l IH]; [intros []|]. intros [->|H] E; cbn [map]; change (nsum (g ?z :: ?m)) with (nadd (g z) (nsum m)).
  - change (nadd (g x) (nsum (map g l)) = None). rewrite E. reflexivity.
  - change (nadd (g y) (nsum (map g l)) = None). rewrite (IH H E). now destruct (g y).
Qed.
Lemma masked_total (f : (nat -> R) -> R) c data : rtotal (map (fun p : point => f (fst p) * (if Z.eqb (snd p) c then 1 else 0)) data) = rtotal (map f (of_class data c)).
Proof.
  induction data as [|p data IH]; [reflexivity|]. unfold of_class in *. cbn [map filter]. destruct (Z.eqb (snd p) c).
  - apply (f_equal2 Rplus); [ring | exact IH].
  - rewrite <- IH. change (rtotal (?a :: ?l)) with (a + rtotal l). unfold rtotal. cbn [fold_right]. ring.
Qed.
Lemma rtotal_ones {A} (l : list A) : rtotal (map (fun _ => 1) l) = INR (length l).
Proof. change (rtotal (map (fun _ : A => 1) l)) with (rs (fun _ : A => 1) l). rewrite rs_const. ring. Qed.
Lemma mask_total c data : nsum (map (mask c) data) = Some (INR (length (of_class data c))).
Proof.
  rewrite (nsum_some_in _ (fun p : point => (fun _ => 1) (fst p) * (if Z.eqb (snd p) c then 1 else 0))).
  - rewrite (masked_total (fun _ => 1)), rtotal_ones. reflexivity.
  - intros p _. unfold mask. f_equal. ring.
Qed.
Lemma mean_ok data c i : of_class data c <> [] -> class_mean data c i = Some (mean_of (of_class data c) i).
Proof.
  intros H. unfold class_mean. rewrite mask_total.
  rewrite (nsum_some_in _ (fun p : point => (fun x => x i) (fst p) * (if Z.eqb (snd p) c then 1 else 0))) by reflexivity.
  rewrite (masked_total (fun x => x i)). cbn [ndiv]. destruct (Req_EM_T (INR (length (of_class data c))) 0) as [E|E]; [|reflexivity].
  exfalso. destruct (of_class data c); [congruence|]. apply INR_eq with (m := 0%nat) in E. discriminate.
Qed.
Lemma mean_nan data c i : of_class data c = [] -> class_mean data c i = None.
Proof.
  intros H. unfold class_mean. rewrite mask_total, H. cbn [length INR]. destruct (nsum _) as [x|]; [|reflexivity]. cbn [ndiv]. destruct (Req_EM_T 0 0); [reflexivity|lra].
Qed.
Lemma class_term data c i j : of_class data c <> [] ->
  nsum (map (fun p => nmul (class_diff data c p i) (class_diff data c p j)) data) = Some (scatter (of_class data c) i j).
Proof.
  intros H. rewrite (nsum_some_in _ (fun p : point => (fun x => (x i - mean_of (of_class data c) i) * (x j - mean_of (of_class data c) j)) (fst p) * (if Z.eqb (snd p) c then 1 else 0))).
  - rewrite (masked_total (fun x => (x i - mean_of (of_class data c) i) * (x j - mean_of (of_class data c) j))). reflexivity.
  - intros p _. unfold class_diff, masked, mask. rewrite !(mean_ok data c) by exact H. cbn. f_equal. destruct (Z.eqb (snd p) c); ring.
Qed.
Lemma fold_classes data k i j : forall a, (forall c, (a <= c < a + k)%nat -> of_class data (Z.of_nat c) <> []) -> forall acc,
  fold_left (fun cov c => nadd cov (nsum (map (fun p => nmul (class_diff data c p i) (class_diff data c p j)) data))) (map Z.of_nat (seq a k)) (Some acc) =
  Some (acc + rs (fun c => scatter (of_class data (Z.of_nat c)) i j) (seq a k)).
Proof.
  induction k as [|k IH]; intros a H acc; [cbn [seq map fold_left]; rewrite rs_nil; f_equal; ring|].
  cbn [seq map fold_left]. rewrite class_term by (apply H; lia). cbn [nadd nlift]. rewrite IH by (intros; apply H; lia). rewrite rs_cons. f_equal. ring.
Qed.
Theorem pooled_covariance : forall data k i j, data <> [] -> all_observed data k ->
  (forall c, (c < k)%nat -> class_mean data (Z.of_nat c) i = Some (mean_of (of_class data (Z.of_nat c)) i)) /\
  joint_cov data (arange k) i j = Some (pooled data k i j).
Proof.
  intros data k i j N O. split; [intros c Hc; apply mean_ok, O, Hc|].
  unfold joint_cov, arange. rewrite fold_classes by (intros; apply O; lia). cbn [ndiv].
  destruct (Req_EM_T (INR (length data)) 0) as [E|E]; [exfalso; destruct data; [congruence|]; apply INR_eq with (m := 0%nat) in E; discriminate|].
  unfold pooled. rewrite rover_rs, Rplus_0_l. reflexivity.
Qed.
Lemma fold_nan data i j p : In p data -> forall cs acc c, In c cs -> of_class data c = [] ->
  fold_left (fun cov c => nadd cov (nsum (map (fun p => nmul (class_diff data c p i) (class_diff data c p j)) data))) cs acc = None.
Proof.
  intros P. assert (Z : forall cs, fold_left (fun cov c => nadd cov (nsum (map (fun p => nmul (class_diff data c p i) (class_diff data c p j)) data))) cs None = None) by (induction cs; auto).
  induction cs as [|c0 cs IH]; intros acc c; [intros []|]. intros [->|H] E; cbn [fold_left].
  - rewrite (nsum_none _ data p P); [|unfold class_diff; rewrite (mean_nan data c i E); reflexivity]. destruct acc; apply Z.
  - now apply (IH _ c).
Qed.
Theorem unobserved_class : forall data k i j c, data <> [] -> (c < k)%nat -> of_class data (Z.of_nat c) = [] ->
  class_mean data (Z.of_nat c) i = None /\ joint_cov data (arange k) i j = None.
Proof.
  intros data k i j c N Hc E. split; [now apply mean_nan|]. unfold joint_cov. destruct data as [|p data]; [congruence|].
  rewrite (fold_nan (p :: data) i j p (or_introl eq_refl) (arange k) (Some 0) (Z.of_nat c)); [reflexivity| |exact E].
  unfold arange. apply in_map, in_seq. lia.
Qed.
Lemma fold_min_none (x : num) r : In None (x :: r) -> fold_right (nlift Rmin) x r = None.
Proof.
  induction r as [|y r IH]; intros H; cbn [fold_right]; [destruct H as [->|[]]; reflexivity|].
  destruct H as [E|[->|H]]; [| reflexivity |]; (rewrite IH; [now destruct y|]); [now left | now right].
Qed.
Lemma maha_nan n X x mean i : (i < n)%nat -> mean i = None -> maha_dist n X x mean = None.
Proof.
  intros Hi E. unfold maha_dist. apply (nsum_none _ (seq 0 n) i); [apply in_seq; lia|]. apply (nsum_none _ (seq 0 n) i); [apply in_seq; lia|]. cbv beta. rewrite E. reflexivity.
Qed.
Theorem unobserved_score : forall pinv n k data x c, (1 <= n)%nat -> (c < k)%nat -> of_class data (Z.of_nat c) = [] ->
  maha_score pinv n k (maha_fit k data) x = Ok None.
Proof.
  intros pinv n k data x c N Hc E. unfold maha_score, maha_fit. f_equal.
  assert (I : In None (map (fun c => maha_dist n (pinv (joint_cov data (arange k))) x (class_mean data c)) (arange k))).
  { apply in_map_iff. exists (Z.of_nat c). split; [apply (maha_nan _ _ _ _ 0%nat); [lia | now apply mean_nan] | unfold arange; apply in_map, in_seq; lia]. }
  destruct (map _ (arange k)) as [|y r]; [destruct I|]. now apply fold_min_none.
Qed.
(** ---- the score ---- *)
Lemma fold_min_some (f : nat -> R) : forall r x, exists s, fold_right (nlift Rmin) (Some (f x)) (map (fun c => Some (f c)) r) = Some s /\ (exists c, In c (x :: r) /\ s = f c) /\ forall c, In c (x :: r) -> s <= f c.
Proof.
  induction r as [|y r IH]; intros x.
  - exists (f x). split; [reflexivity|]. split; [exists x; split; [now left | reflexivity]|]. intros c [->|[]]. lra.
  - destruct (IH x) as (s & E & (c & Ic & Ec) & L). cbn [map fold_right]. rewrite E. cbn [nlift]. exists (Rmin (f y) s). split; [reflexivity|]. split.
    + unfold Rmin. destruct (Rle_dec (f y) s); [exists y; split; [right; now left | reflexivity] | exists c; split; [destruct Ic; [now left | right; now right] | exact Ec]].
    + intros d [->|[->|D]]; [apply Rle_trans with s; [apply Rmin_r | apply L; now left] | apply Rmin_l | apply Rle_trans with s; [apply Rmin_r | apply L; now right]].
Qed.
Lemma maha_some n X Y x mean m : (forall i j, (i < n)%nat -> (j < n)%nat -> X i j = Some (Y i j)) -> (forall i, (i < n)%nat -> mean i = Some (m i)) ->
  maha_dist n X x mean = Some (distance n Y x m).
Proof.
  intros HX Hm. unfold maha_dist, distance, quad. apply nsum_some_in. intros i Hi. apply in_seq in Hi.
  apply (nsum_some_in _ (fun j => (x i - m i) * Y i j * (x j - m j))). intros j Hj. apply in_seq in Hj. rewrite (Hm i), (Hm j), (HX i j) by lia. reflexivity.
Qed.
Lemma scatter_quad n xs v : quad n (scatter xs) v = rtotal (map (fun x => inner n (fun i => x i - mean_of xs i) v * inner n (fun i => x i - mean_of xs i) v) xs).
Proof.
  pose proof (quad_gram n (map (fun x i => x i - mean_of xs i) xs) v) as Q. rewrite map_map in Q. rewrite <- Q. apply quad_ext. intros i j _ _. unfold scatter, gram. now rewrite map_map.
Qed.
Lemma pooled_psd n data k v : 0 <= quad n (pooled data k) v.
Proof.
  assert (E : quad n (pooled data k) v = / INR (length data) * rover k (fun c => quad n (scatter (of_class data (Z.of_nat c))) v)).
  { unfold pooled, Rdiv. rewrite (quad_ext n _ (fun i j => / INR (length data) * rover k (fun c => scatter (of_class data (Z.of_nat c)) i j))) by (intros; ring).
    rewrite quad_scale. f_equal. induction k as [|k IH].
    - unfold quad. apply rover_const0. intros. apply rover_const0. intros. rewrite rover_0. ring.
    - rewrite (quad_ext n _ (fun i j => rover k (fun c => scatter (of_class data (Z.of_nat c)) i j) + scatter (of_class data (Z.of_nat k)) i j)) by (intros; rewrite rover_S; reflexivity).
      rewrite (quad_add n (fun i j => rover k (fun c => scatter (of_class data (Z.of_nat c)) i j)) (scatter (of_class data (Z.of_nat k)))), IH, rover_S. reflexivity. }
  rewrite E. apply Rmult_le_pos.
  - destruct data as [|p d]; [cbn; rewrite Rinv_0; lra|]. left. apply Rinv_0_lt_compat, INR_pos. cbn. lia.
  - apply rover_nonneg. intros c _. rewrite scatter_quad. apply rtotal_nonneg. intros. apply (Rle_0_sqr (inner n (fun i => x i - mean_of (of_class data (Z.of_nat c)) i) v)).
Qed.
Lemma pseudo_psd n A X v : (forall y, 0 <= quad n A y) -> pseudo_inverse n A X -> 0 <= quad n X v.
Proof.
  intros P [Sy E]. set (y := fun a => rover n (fun i => X i a * v i)).
  replace (quad n X v) with (quad n A y); [apply P|]. symmetry.
  (* v'Xv = sum_ij v_i (sum_ab X_ia A_ab X_bj) v_j = sum_ab y_a A_ab y_b *)
  transitivity (rover n (fun i => rover n (fun j => rover n (fun a => rover n (fun b => v i * X i a * A a b * X b j * v j))))).
  { apply rover_ext; intros i Hi. apply rover_ext; intros j Hj. rewrite (E i j Hi Hj). rewrite <- rover_scale_l, <- rover_scale. apply rover_ext; intros a Ha.
    rewrite <- rover_scale_l, <- rover_scale. apply rover_ext; intros; ring. }
  rewrite (rover_ext n _ (fun i => rover n (fun a => rover n (fun j => rover n (fun b => v i * X i a * A a b * X b j * v j))))) by (intros; apply rover_swap).
  rewrite rover_swap. unfold quad. apply rover_ext; intros a Ha.
  rewrite (rover_ext n _ (fun i => rover n (fun b => rover n (fun j => v i * X i a * A a b * X b j * v j)))) by (intros; apply rover_swap).
  rewrite rover_swap. apply rover_ext; intros b Hb.
  rewrite (rover_ext n _ (fun i => v i * X i a * (A a b * y b))).
  2:{ intros i Hi. unfold y. rewrite <- rover_scale_l, <- rover_scale_l. apply rover_ext; intros j Hj. rewrite (Sy j b Hj Hb). ring. }
  rewrite rover_scale. unfold y at 2. rewrite (rover_ext n (fun i => v i * X i a) (fun i => X i a * v i)) by (intros; ring). ring.
Qed.
Theorem score_spec : forall pinv n k data X x, data <> [] -> (1 <= k)%nat -> all_observed data k ->
  (forall i j, (i < n)%nat -> (j < n)%nat -> pinv (joint_cov data (arange k)) i j = Some (X i j)) -> pseudo_inverse n (pooled data k) X ->
  exists s, maha_score pinv n k (maha_fit k data) x = Ok (Some s) /\ smallest k (fun c => distance n X x (mean_of (of_class data (Z.of_nat c)))) s /\ 0 <= s.
Proof.
  intros pinv n k data X x N K O HX P. unfold maha_score, maha_fit.
  set (f := fun c => distance n X x (mean_of (of_class data (Z.of_nat c)))).
  assert (E : map (fun c => maha_dist n (pinv (joint_cov data (arange k))) x (class_mean data c)) (arange k) = map (fun c => Some (f c)) (seq 0 k)).
  { unfold arange at 2. rewrite map_map. apply map_ext_in. intros c Hc. apply in_seq in Hc. apply maha_some; [exact HX|]. intros i _. apply mean_ok, O. lia. }
  rewrite E. destruct k as [|k]; [lia|]. cbn [seq map nmin]. destruct (fold_min_some f (seq 1 k) 0%nat) as (s & Es & (c & Ic & Ec) & L).
  exists s. rewrite Es. split; [reflexivity|].
  assert (I : forall c, In c (0%nat :: seq 1 k) <-> (c < S k)%nat).
  { intros d. change (0%nat :: seq 1 k) with (seq 0 (S k)). rewrite in_seq. lia. }
  split; [split; [exists c; split; [now apply I | exact Ec] | intros d Hd; apply L; now apply I]|].
  rewrite Ec. unfold f, distance. eapply pseudo_psd; [|exact P]. intros y. apply pooled_psd.
Qed.
Theorem score_at_mean : forall pinv n k data X x c, data <> [] -> all_observed data k -> (c < k)%nat ->
  (forall i j, (i < n)%nat -> (j < n)%nat -> pinv (joint_cov data (arange k)) i j = Some (X i j)) -> pseudo_inverse n (pooled data k) X ->
  (forall i, (i < n)%nat -> x i = mean_of (of_class data (Z.of_nat c)) i) ->
  maha_score pinv n k (maha_fit k data) x = Ok (Some 0).
Proof.
  intros pinv n k data X x c N O Hc HX P E. destruct (score_spec pinv n k data X x N ltac:(lia) O HX P) as (s & Es & (_ & L) & S0).
  rewrite Es. do 2 f_equal. specialize (L c Hc). cbv beta in L. unfold distance, quad in L.
  rewrite rover_const0 in L; [lra|]. intros i Hi. apply rover_const0. intros j Hj. rewrite (E i Hi). ring.
Qed.
Theorem maha_not_fitted : forall pinv n k x, maha_score pinv n k None x = Err NotFittedError.
Proof. reflexivity. Qed.

(** ---- DDU ---- *)
Lemma members_class data c : members data c = of_class data c. Proof. reflexivity. Qed.
Lemma ddu_mean_ok data c i : of_class data c <> [] -> ddu_mean data c i = Some (mean_of (of_class data c) i).
Proof.
  intros H. unfold ddu_mean. rewrite members_class, nsum_some. cbn [ndiv]. destruct (Req_EM_T (INR (length (of_class data c))) 0) as [E|E]; [|reflexivity].
  exfalso. destruct (of_class data c); [congruence|]. apply INR_eq with (m := 0%nat) in E. discriminate.
Qed.
Lemma ddu_mean_nan data c i : of_class data c = [] -> ddu_mean data c i = None.
Proof. intros H. unfold ddu_mean. rewrite members_class, H. cbn. destruct (Req_EM_T 0 0); [reflexivity|lra]. Qed.
Theorem ddu_moments : forall data c, (2 <= length (of_class data c))%nat ->
  exists cov, ddu_cov data c = Ok cov /\ forall i j, ddu_mean data c i = Some (mean_of (of_class data c) i) /\
    cov i j = Some (scatter (of_class data c) i j / (INR (length (of_class data c)) - 1)).
Proof.
  intros data c L. assert (N : of_class data c <> []) by (destruct (of_class data c); [cbn in L; lia | discriminate]).
  unfold ddu_cov, centered_cov. rewrite map_length, members_class. set (xs := of_class data c) in *.
  destruct (length xs) as [|[|n]] eqn:E; [lia|lia|]. eexists. split; [reflexivity|]. intros i j. split; [now apply ddu_mean_ok|].
  set (r := INR (S (S n)) - 1). rewrite map_map.
  rewrite (nsum_some_in _ (fun x => (1 / r) * ((x i - mean_of xs i) * (x j - mean_of xs j)))).
  - f_equal. unfold scatter, Rdiv. change (rtotal (map ?f xs)) with (rs f xs). rewrite (rs_ext _ (fun x => ((x i - mean_of xs i) * (x j - mean_of xs j)) * / r)) by (intros; ring). rewrite rs_scale. reflexivity.
  - intros x _. rewrite !(ddu_mean_ok data c) by exact N. unfold nsub, nmul, nlift. f_equal.
 fold xs. ring.
Qed.
Lemma mapM_err {A B} (f : A -> result B) l x e : In x l -> f x = Err e -> exists e', mapM f l = Err e'.
Proof.
  induction l as [|y l IH]; [intros []|]. intros [->|H] E.
  - cbn. rewrite E. eexists. reflexivity.
  - destruct (IH H E) as [e' E']. cbn. rewrite E'. destruct (f y); eexists; reflexivity.
Qed.
Lemma centered_err rows e : centered_cov rows = Err e -> e = ZeroDivisionError.
Proof. unfold centered_cov. destruct (length rows) as [|[|n]]; intros H; try discriminate. now injection H. Qed.
Theorem ddu_singleton : forall logpdf js k data c, (c < k)%nat -> length (of_class data (Z.of_nat c)) = 1%nat -> ddu_fit logpdf js k data = Err ZeroDivisionError.
Proof.
  intros logpdf js k data c Hc L. unfold ddu_fit, classwise, arange.
  assert (F : forall z e, rmap (fun cov => (ddu_mean data z, cov)) (ddu_cov data z) = Err e -> e = ZeroDivisionError).
  { intros z e. unfold ddu_cov. destruct (centered_cov _) as [v|e'] eqn:E; cbn [rmap]; [discriminate|]. intros H. injection H as <-. now apply centered_err in E. }
  assert (M : forall l, In (Z.of_nat c) l -> mapM (fun z => rmap (fun cov => (ddu_mean data z, cov)) (ddu_cov data z)) l = Err ZeroDivisionError).
  { intros l I. assert (E0 : rmap (fun cov => (ddu_mean data (Z.of_nat c), cov)) (ddu_cov data (Z.of_nat c)) = Err ZeroDivisionError).
    { unfold ddu_cov, centered_cov. rewrite map_length, members_class, L. reflexivity. }
    induction l as [|z l IH]; [destruct I|]. cbn [mapM]. destruct I as [->|I].
    - rewrite E0. reflexivity.
    - specialize (IH I). destruct (rmap (fun cov => (ddu_mean data z, cov)) (ddu_cov data z)) as [v|e] eqn:Ez; cbn [bind]; [rewrite IH; reflexivity | f_equal; now apply (F z)]. }
  rewrite M; [reflexivity|]. apply in_map, in_seq. lia.
Qed.
Theorem jitter_first : forall ok js e, choose_jitter ok js None = Ok e ->
  (exists a b, js = a ++ e :: b /\ ok e = true /\ forall x, In x a -> ok x = false) \/ (exists a, js = a ++ [e] /\ forall x, In x js -> ok x = false).
Proof.
  intros ok js e. enough (G : forall js l, choose_jitter ok js l = Ok e -> (exists a b, js = a ++ e :: b /\ ok e = true /\ forall x, In x a -> ok x = false) \/ ((js = [] /\ l = Some e \/ exists a, js = a ++ [e]) /\ forall x, In x js -> ok x = false)).
  { intros H. destruct (G js None H) as [?|[[[-> X]|?] ?]]; [now left | discriminate | right]. destruct H0 as [a Ha]. exists a. auto. }
  clear js. induction js as [|x js IH]; intros l H; cbn [choose_jitter] in H.
  - destruct l as [y|]; [|discriminate]. injection H as ->. right. split; [left; auto | intros x []].
  - destruct (ok x) eqn:Ox.
    + injection H as ->. left. exists [], js. split; [reflexivity|]. split; [exact Ox | intros x []].
    + destruct (IH _ H) as [(a & b & -> & Oe & A)|[[[-> X]|[a ->]] A]].
      * left. exists (x :: a), b. split; [reflexivity|]. split; [exact Oe|]. intros y [<-|Y]; auto.
      * right. injection X as ->. split; [right; exists []; reflexivity|]. intros y [<-|[]]. exact Ox.
      * right. split; [right; exists (x :: a); reflexivity|]. intros y [<-|Y]; auto.
Qed.
Theorem jitter_total : forall ok tiny, exists e, choose_jitter ok (jitters tiny) None = Ok e.
Proof.
  intros ok tiny. unfold jitters. enough (G : forall js l, exists e, choose_jitter ok js (Some l) = Ok e).
  { cbn [choose_jitter]. destruct (ok 0); [eauto|]. destruct (ok tiny); [eauto|]. apply G. }
  induction js as [|x js IH]; intros l; cbn; [eauto|]. destruct (ok x); [eauto|apply IH].
Qed.
Lemma row_pos ls : ls <> [] -> 0 < rsum (map exp ls). Proof. apply rsum_exp_pos. Qed.
Lemma rsum_exp_ge ls : forall m, In m ls -> exp m <= rsum (map exp ls).
Proof.
  intros m H. change (rsum (map exp ls)) with (rs exp ls). apply (rs_ge exp); [intros; left; apply exp_pos | exact H].
Qed.
Lemma nan_some ls : map nan_to_num (map Some ls) = ls.
Proof. rewrite map_map. apply map_id. Qed.
Theorem ddu_row_bounds : forall ls m, In m ls -> (forall l, In l ls -> l <= m) ->
  - m - ln (INR (length ls)) <= ddu_row_score (map Some ls) <= - m /\ exp (- ddu_row_score (map Some ls)) = rtotal (map exp ls).
Proof.
  intros ls m I Mx. unfold ddu_row_score. rewrite nan_some.
  assert (NE : ls <> []) by (intros ->; destruct I). assert (P := row_pos ls NE).
  assert (L : 0 < INR (length ls)) by (apply INR_pos; destruct ls; [congruence | cbn; lia]).
  split; [split|].
  - assert (rsum (map exp ls) <= INR (length ls) * exp m).
    { change (rsum (map exp ls)) with (rs exp ls). rewrite <- rs_const. apply rs_le. intros x Hx. destruct (Mx x Hx) as [H|H]; [left; now apply exp_increasing | right; now rewrite H]. }
    assert (ln (rsum (map exp ls)) <= ln (INR (length ls) * exp m)) by (destruct H as [H|H]; [left; now apply ln_increasing | right; now rewrite H]).
    rewrite ln_mult, ln_exp in H0 by (auto using exp_pos). lra.
  - assert (exp m <= rsum (map exp ls)) by now apply rsum_exp_ge.
    assert (ln (exp m) <= ln (rsum (map exp ls))) by (destruct H as [H|H]; [left; apply ln_increasing; [apply exp_pos | exact H] | right; now rewrite H]).
    rewrite ln_exp in H0. lra.
  - rewrite Ropp_involutive, exp_ln by exact P. reflexivity.
Qed.
Theorem ddu_row_monotone : forall ls ls', ls <> [] -> length ls = length ls' -> (forall i, nth i ls 0 <= nth i ls' 0) ->
  ddu_row_score (map Some ls') <= ddu_row_score (map Some ls).
Proof.
  intros ls ls' NE L H. unfold ddu_row_score. rewrite !nan_some.
  assert (G : rsum (map exp ls) <= rsum (map exp ls')).
  { clear NE. revert ls' L H. induction ls as [|x ls IH]; intros [|y ls'] L H; try discriminate; [cbn; lra|].
    change (exp x + rsum (map exp ls) <= exp y + rsum (map exp ls')). apply Rplus_le_compat.
    - specialize (H 0%nat). cbn in H. destruct H as [H|H]; [left; now apply exp_increasing | right; now rewrite H].
    - apply IH; [cbn in L; lia|]. intros i. exact (H (S i)). }
  pose proof (row_pos ls NE). assert (ln (rsum (map exp ls)) <= ln (rsum (map exp ls'))) by (destruct G as [G|G]; [left; now apply ln_increasing | right; now rewrite G]). lra.
Qed.
Lemma nan_row_score row : In None row -> ddu_row_score row <= 0.
Proof.
  intros I. unfold ddu_row_score. assert (H : exp 0 <= rsum (map exp (map nan_to_num row))) by (apply rsum_exp_ge; apply in_map_iff; exists None; auto).
  rewrite exp_0 in H. assert (0 <= ln (rsum (map exp (map nan_to_num row)))); [|lra]. rewrite <- ln_1. destruct H as [H|H]; [left; apply ln_increasing; lra | right; now rewrite <- H].
Qed.
(** an unobserved class: the score of every embedding is at most zero *)
Theorem ddu_unobserved : forall logpdf js k data st x c s, (forall x m cov, (exists i, m i = None) -> logpdf x m cov = None) ->
  (c < k)%nat -> of_class data (Z.of_nat c) = [] -> ddu_fit logpdf js k data = Ok st -> ddu_score logpdf st x = Ok s -> s <= 0.
Proof.
  intros logpdf js k data st x c s LN Hc E F S. unfold ddu_fit in F. destruct (classwise k data) as [classes|e] eqn:Cl; [|discriminate]. cbn [bind] in F.
  destruct (choose_jitter _ _ _) as [eps|e]; [|discriminate]. cbn [bind] in F. injection F as <-. cbn in S. injection S as <-. apply nan_row_score.
  assert (I : exists cov, In (ddu_mean data (Z.of_nat c), cov) classes).
  { unfold classwise in Cl. assert (H : In (Z.of_nat c) (arange k)) by (unfold arange; apply in_map, in_seq; lia).
    revert classes Cl H. induction (arange k) as [|z l IH]; intros classes Cl H; [destruct H|]. cbn [mapM] in Cl.
    destruct (ddu_cov data z) as [cov|e] eqn:Cz; [|discriminate]. cbn [rmap bind] in Cl. destruct (mapM _ l) as [r|e]; [|discriminate]. cbn [bind] in Cl. injection Cl as <-.
    destruct H as [->|H]; [exists cov; now left|]. destruct (IH r eq_refl H) as [cv Icv]. exists cv. now right. }
  destruct I as [cov I]. unfold gmm_logprob. apply in_map_iff. exists (ddu_mean data (Z.of_nat c), cov). split; [|exact I]. apply LN. exists 0%nat. now apply ddu_mean_nan.
Qed.
Theorem ddu_not_fitted : forall logpdf x, ddu_score logpdf None x = Err NotFittedError.
Proof. reflexivity. Qed.
Lemma mapM_length {A B} (f : A -> result B) l r : mapM f l = Ok r -> length r = length l.
Proof.
  revert r. induction l as [|x l IH]; intros r H; cbn in H; [now injection H as <-|]. destruct (f x); [|discriminate]. cbn in H.
  destruct (mapM f l) as [r'|]; [|discriminate]. cbn in H. injection H as <-. cbn. f_equal. now apply IH.
Qed.
Theorem ddu_score_fitted : forall logpdf js k data st x, ddu_fit logpdf js k data = Ok st ->
  exists classes eps, length classes = k /\ In eps js /\
  ddu_score logpdf st x = Ok (ddu_row_score (map (fun mc => logpdf (fun i => Some (x i)) (fst mc) (add_jitter eps (snd mc))) classes)) /\
  ((forall mc mc', In mc classes -> In mc' classes -> logpdf (fst mc) (fst mc') (add_jitter eps (snd mc')) <> None) \/ (exists a, js = a ++ [eps])).
Proof.
  intros logpdf js k data st x H. unfold ddu_fit in H. destruct (classwise k data) as [classes|] eqn:C; [|discriminate]. cbn [bind] in H.
  destruct (choose_jitter _ js None) as [eps|] eqn:J; [|discriminate]. cbn [bind] in H. injection H as <-.
  exists classes, eps. split; [apply mapM_length in C; unfold arange in C; now rewrite map_length, seq_length in C|].
  apply jitter_first in J. split; [|split; [reflexivity|]].
  - destruct J as [(a & b & -> & _)|(a & -> & _)]; apply in_or_app; right; now left.
  - destruct J as [(a & b & _ & Oe & _)|(a & E & _)]; [left | right; now exists a].
    intros mc mc' I I' E. unfold no_nans in Oe. rewrite forallb_forall in Oe. specialize (Oe mc I). rewrite forallb_forall in Oe.
    assert (X := Oe (logpdf (fst mc) (fst mc') (add_jitter eps (snd mc')))). rewrite E in X. cbn in X. discriminate X.
    unfold gmm_logprob. apply in_map_iff. exists mc'. auto.
Qed.
