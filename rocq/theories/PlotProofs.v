(** What the two-dimensional plots show. *)
From Coq Require Import List Arith QArith Qminmax Bool Lia Lqa String.
From Verif Require Import Lib PlotModel PlotSpec.
Import ListNotations.
Local Open Scope nat_scope.
Local Open Scope list_scope.
Local Notation length := List.length.
Local Notation concat := List.concat.

Lemma concat_length_const {A} k (rows : list (list A)) : Forall (fun r => length r = k) rows -> length (concat rows) = length rows * k.
Proof. induction 1 as [|r rows R _ IH]; [reflexivity|]. cbn [concat length]. rewrite app_length, R, IH. lia. Qed.
Lemma nth_block {A} k (rows : list (list A)) : Forall (fun r => length r = k) rows -> map (fun i => firstn k (skipn (i * k) (concat rows))) (seq 0 (length rows)) = rows.
Proof.
  induction 1 as [|r rows R _ IH]; [reflexivity|]. cbn [length seq map concat]. f_equal.
  - cbn [Nat.mul skipn]. rewrite firstn_app, R, Nat.sub_diag, firstn_O, app_nil_r. apply firstn_all2. lia.
  - rewrite <- seq_shift, map_map. rewrite <- IH at 2. apply map_ext. intros i. f_equal. rewrite skipn_app, R. rewrite skipn_all2 by (cbn; lia). cbn [app]. f_equal. cbn. lia.
Qed.
Lemma reshape_rows {A} k (rows : list (list A)) : Forall (fun r => length r = k) rows -> reshape2 (length rows) k (concat rows) = Ok rows.
Proof. intros F. unfold reshape2. rewrite concat_length_const with (k := k), Nat.eqb_refl by exact F. f_equal. now apply nth_block. Qed.
Lemma skipn_add {A} : forall a b (l : list A), skipn a (skipn b l) = skipn (b + a) l.
Proof. intros a b. induction b as [|b IH]; intros l; [reflexivity|]. destruct l as [|x l]; [now rewrite !skipn_nil|]. cbn. apply IH. Qed.
Lemma reshape_concat {A} : forall n k (l : list A) rows, reshape2 n k l = Ok rows -> concat rows = l /\ length rows = n /\ Forall (fun r => length r = k) rows.
Proof.
  intros n k l rows. unfold reshape2. destruct (Nat.eqb_spec (length l) (n * k)) as [L|L]; [|discriminate]. intros E. injection E as <-.
  revert l L. induction n as [|n IH]; intros l L; [destruct l; [repeat split; constructor|discriminate]|].
  destruct (IH (skipn k l)) as (A1 & A2 & A3); [rewrite skipn_length; cbn in L; lia|].
  assert (M : map (fun i => firstn k (skipn (i * k) l)) (seq 1 n) = map (fun i => firstn k (skipn (i * k) (skipn k l))) (seq 0 n)).
  { rewrite <- seq_shift, map_map. apply map_ext. intros i. rewrite skipn_add. do 2 f_equal. }
  cbn [seq map concat length]. rewrite M. split; [rewrite A1; apply firstn_skipn|]. split; [now rewrite A2|]. constructor; [|exact A3]. rewrite firstn_length. cbn in L. cbn. lia.
Qed.
Lemma lattice_rows a b : Forall (fun r => length r = length b) (lattice a b).
Proof. apply Forall_forall. intros r I. apply in_map_iff in I. destruct I as (x & <- & _). apply map_length. Qed.
Lemma product_lattice a b : flat_map (fun x => map (pair x) b) a = concat (lattice a b).
Proof. rewrite flat_map_concat_map. reflexivity. Qed.
Lemma lattice_length a b : length (lattice a b) = length a.
Proof. apply map_length. Qed.
Lemma reshape_lattice a b : reshape2 (length a) (length b) (concat (lattice a b)) = Ok (lattice a b).
Proof. rewrite <- (lattice_length a b). apply reshape_rows, lattice_rows. Qed.
Lemma reshape_map {A B} (h : A -> B) n k l rows : reshape2 n k l = Ok rows -> reshape2 n k (map h l) = Ok (map (map h) rows).
Proof.
  intros E. destruct (reshape_concat n k l rows E) as (C & L & F). rewrite <- C, concat_map. replace n with (length (map (map h) rows)) by (rewrite map_length; exact L). apply reshape_rows.
  apply Forall_map. eapply Forall_impl; [|exact F]. intros r R. now rewrite map_length.
Qed.

(** ---- colours ---- *)
Section Cells.
Context {U C : Type}.
Variables (inputs : option (list (Q * Q))) (preds : option (list Z)) (base first second : C).
Hypothesis PL : forall l ps, inputs = Some l -> preds = Some ps -> length ps = length l.
Lemma points_found : exists p, (match inputs, preds with
        | None, _ => Ok None
        | Some l, None => Ok (Some (l, inl base))
        | Some l, Some ps => if length ps =? length l then Ok (Some (l, inr (map (fun i => if (i =? 1)%Z then first else second) ps))) else Err ValueError
        end) = Ok p /\ points_ok inputs preds base first second p.
Proof.
  unfold points_ok. destruct inputs as [l|]; [|now exists None]. destruct preds as [ps|]; [|now exists (Some (l, inl base))].
  specialize (PL l ps eq_refl eq_refl). rewrite PL, Nat.eqb_refl. eexists. split; [reflexivity|]. split; [reflexivity || exact PL|]. eexists. split; [reflexivity|]. rewrite map_length. split; [reflexivity || exact PL|].
  intros i I. rewrite (nth_indep _ second (if (0 =? 1)%Z then first else second)) by (rewrite map_length; lia). exact (map_nth (fun i => if (i =? 1)%Z then first else second) ps 0%Z i).
Qed.
Lemma drawn_lattice gu fn a b vs : reshape2 (length a) (length b) (match gu, fn with Some u, _ => u | None, Some f => f (concat (lattice a b)) | None, None => [] end) = Ok vs ->
  exists fig : figure U C, drawn inputs preds gu fn base first second false (concat (lattice a b)) (length a) (length b) = Ok fig /\
    f_cells fig = lattice a b /\ f_values fig = vs /\ points_ok inputs preds base first second (f_points fig).
Proof.
  intros V. destruct points_found as (p & E & P). unfold drawn. rewrite V. cbn [bind]. rewrite reshape_lattice. cbn [bind]. rewrite E. cbn [bind]. eexists. split; [reflexivity|]. now split.
Qed.
End Cells.

(** ---- axes ---- *)
Lemma q_min_spec l : l <> [] -> exists m, q_min l = Ok m /\ In m l /\ forall v, In v l -> (m <= v)%Q.
Proof.
  destruct l as [|x r]; [congruence|]. intros _. cbn [q_min]. revert x. induction r as [|y r IH]; intros x.
  - exists x. split; [reflexivity|]. split; [now left|]. intros v [<-|[]]. lra.
  - cbn [fold_left]. destruct (IH (Qmin x y)) as (m & E & I & M). injection E as E. exists m. split; [now rewrite E|]. split.
    + destruct I as [<-|I]; [|now right; right]. unfold Qmin, GenericMinMax.gmin. destruct (x ?= y)%Q; [now left|now left|now right; left].
    + assert (X : (m <= Qmin x y)%Q) by (apply M; now left). assert (L1 := Q.le_min_l x y). assert (L2 := Q.le_min_r x y). intros v [<-|[<-|I']]; [lra|lra|apply M; now right].
Qed.
Lemma q_max_spec l : l <> [] -> exists m, q_max l = Ok m /\ In m l /\ forall v, In v l -> (v <= m)%Q.
Proof.
  destruct l as [|x r]; [congruence|]. intros _. cbn [q_max]. revert x. induction r as [|y r IH]; intros x.
  - exists x. split; [reflexivity|]. split; [now left|]. intros v [<-|[]]. lra.
  - cbn [fold_left]. destruct (IH (Qmax x y)) as (m & E & I & M). injection E as E. exists m. split; [now rewrite E|]. split.
    + destruct I as [<-|I]; [|now right; right]. unfold Qmax, GenericMinMax.gmax. destruct (x ?= y)%Q; [now left|now right; left|now left].
    + assert (X : (Qmax x y <= m)%Q) by (apply M; now left). assert (L1 := Q.le_max_l x y). assert (L2 := Q.le_max_r x y). intros v [<-|[<-|I']]; [lra|lra|apply M; now right].
Qed.
Lemma linspace_first lo hi n : 1 <= n -> (nth 0 (linspace lo hi n) 0 == lo)%Q.
Proof. intros N. destruct n as [|n]; [lia|]. cbn [linspace seq map nth]. unfold linspace. cbn [seq map nth]. rewrite Qmult_0_l. lra. Qed.
Lemma linspace_length lo hi n : length (linspace lo hi n) = n.
Proof. unfold linspace. now rewrite map_length, seq_length. Qed.
Lemma linspace_last lo hi n : 2 <= n -> (nth (n - 1) (linspace lo hi n) 0 == hi)%Q.
Proof.
  intros N. unfold linspace. set (f := fun i => _). rewrite (nth_indep _ 0%Q (f 0)) by (rewrite map_length, seq_length; lia). rewrite map_nth, seq_nth by lia. unfold f. cbn [Nat.add].
  assert (Z : ~ (inject_Z (Z.of_nat (n - 1)) == 0)%Q). { unfold Qeq, inject_Z. cbn [Qnum Qden]. lia. }
  field. exact Z.
Qed.
Lemma axis_spec column n : column <> [] -> 2 <= n -> exists a, axis column n = Ok a /\ length a = n /\ spans a column.
Proof.
  intros NE N. destruct (q_min_spec column NE) as (lo & E1 & I1 & M1). destruct (q_max_spec column NE) as (hi & E2 & I2 & M2). unfold axis. rewrite E1, E2. cbn [bind]. eexists. split; [reflexivity|].
  rewrite linspace_length. split; [reflexivity|]. exists lo, hi. split; [exact I1|]. split; [exact I2|]. split; [intros v I; split; auto|]. rewrite linspace_length. split; [apply linspace_first; lia|now apply linspace_last].
Qed.

(** ---- theorems ---- *)
Theorem given_axes : forall U C inputs preds a b (h : Q * Q -> U) (base first second : C),
  (forall l ps, inputs = Some l -> preds = Some ps -> length ps = length l) ->
  exists fig, plot_2d inputs preds (Some a) (Some b) None None (Some (map h)) base first second false = Ok fig /\
    f_cells fig = lattice a b /\ f_values fig = map (map h) (lattice a b) /\ points_ok inputs preds base first second (f_points fig).
Proof.
  intros U C inputs preds a b h base first second PL. unfold plot_2d, rejected. cbn [none negb andb orb]. cbn [axes bind fst snd]. rewrite product_lattice.
  apply drawn_lattice; [exact PL|]. apply reshape_map, reshape_lattice.
Qed.
Theorem own_axes : forall U C l preds xx1 xx2 (h : Q * Q -> U) (base first second : C), l <> [] ->
  (forall ps, preds = Some ps -> length ps = length l) ->
  (forall a, xx1 = Some a -> 2 <= length a) -> (forall b, xx2 = Some b -> 2 <= length b) -> xx1 = None \/ xx2 = None ->
  exists fig a b, plot_2d (Some l) preds xx1 xx2 None None (Some (map h)) base first second false = Ok fig /\
    f_cells fig = lattice a b /\ f_values fig = map (map h) (lattice a b) /\ points_ok (Some l) preds base first second (f_points fig) /\
    length a = length b /\ match xx1 with Some x => a = x | None => spans a (map fst l) end /\ match xx2 with Some x => b = x | None => spans b (map snd l) end /\
    (xx1 = None -> xx2 = None -> length a = 100).
Proof.
  intros U C l preds xx1 xx2 h base first second NE PL A B N.
  assert (AX : exists a b, axes (Some l) xx1 xx2 = Ok (a, b) /\ length a = length b /\ match xx1 with Some x => a = x | None => spans a (map fst l) end /\ match xx2 with Some x => b = x | None => spans b (map snd l) end /\ (xx1 = None -> xx2 = None -> length a = 100)).
  { assert (N1 : map fst l <> []) by (destruct l; [congruence|discriminate]). assert (N2 : map snd l <> []) by (destruct l; [congruence|discriminate]). destruct xx1 as [a|], xx2 as [b|].
    - destruct N; discriminate.
    - destruct (axis_spec (map snd l) (length a) N2 (A a eq_refl)) as (b & E & L & S). exists a, b. unfold axes. rewrite E. repeat split; auto. discriminate.
    - destruct (axis_spec (map fst l) (length b) N1 (B b eq_refl)) as (a & E & L & S). exists a, b. unfold axes. rewrite E. repeat split; auto. discriminate.
    - destruct (axis_spec (map fst l) 100 N1 ltac:(lia)) as (a & E & L & S). destruct (axis_spec (map snd l) (length a) N2 ltac:(lia)) as (b & E' & L' & S'). exists a, b. unfold axes. rewrite E. cbn [bind]. rewrite E'. repeat split; auto. }
  destruct AX as (a & b & E & L & S1 & S2 & H).
  destruct (drawn_lattice (U := U) (Some l) preds base first second (fun l' ps X Y => match X in _ = y return match y with Some l' => length ps = length l' | None => True end with eq_refl => PL ps Y end) None (Some (map h)) a b (map (map h) (lattice a b))) as (fig & D & F1 & F2 & F3).
  { apply reshape_map, reshape_lattice. }
  exists fig, a, b. unfold plot_2d. assert (RJ : rejected (U := U) (Some l) xx1 xx2 None None (Some (map h)) = false) by (unfold rejected; cbn [none negb andb orb]; now rewrite andb_false_r).
  rewrite RJ, E. cbn [bind fst snd]. rewrite product_lattice. repeat split; auto.
Qed.
Theorem grid_order : forall U C inputs preds xx1 xx2 g gu fn (base first second : C) ticks (fig : figure U C),
  plot_2d inputs preds xx1 xx2 (Some g) gu fn base first second ticks = Ok fig ->
  concat (f_cells fig) = g /\ match gu, fn with Some u, _ => concat (f_values fig) = u | None, Some f => concat (f_values fig) = f g | None, None => False end.
Proof.
  intros U C inputs preds xx1 xx2 g gu fn base first second ticks fig. unfold plot_2d. destruct (rejected inputs xx1 xx2 (Some g) gu fn) eqn:R; [discriminate|]. unfold drawn. set (n := match xx1 with Some _ => _ | None => _ end). set (k := match xx2 with Some _ => _ | None => _ end).
  destruct (reshape2 n k match gu with Some u => u | None => match fn with Some f => f g | None => [] end end) as [vs|] eqn:E; [|discriminate]. cbn [bind].
  destruct (reshape2 n k g) as [cs|] eqn:E2; [|discriminate]. cbn [bind]. destruct (match inputs with Some _ => _ | None => _ end) as [p|]; [|discriminate]. cbn [bind]. destruct ticks; [discriminate|]. intros X. injection X as <-. cbn [f_cells f_values].
  apply reshape_concat in E, E2. split; [tauto|]. destruct gu as [u|]; [tauto|]. destruct fn as [f|]; [tauto|].
  unfold rejected in R. cbn [none] in R. rewrite !andb_true_r, !orb_true_r in R. cbn in R. rewrite ?orb_true_r in R. discriminate.
Qed.
Lemma distinct_apart l : apart l -> distinct l = length l.
Proof.
  induction l as [|x r IH]; intros A; [reflexivity|]. cbn [distinct length]. rewrite IH.
  - destruct (existsb (Qeq_bool x) r) eqn:E; [|reflexivity]. apply existsb_exists in E. destruct E as (y & I & E). apply Qeq_bool_iff in E. apply (In_nth r y 0%Q) in I. destruct I as (j & J & <-). elim (A 0 (S j)); [cbn; lia|exact E].
  - intros i j H. apply (A (S i) (S j)). cbn. lia.
Qed.
Lemma distinct_ext_app l m : (forall x, In x l -> exists y, In y m /\ (x == y)%Q) -> distinct (l ++ m) = distinct m.
Proof.
  induction l as [|x l IH]; intros H; [reflexivity|]. cbn [app distinct]. destruct (existsb (Qeq_bool x) (l ++ m)) eqn:E.
  - apply IH. intros y I. apply H. now right.
  - destruct (H x (or_introl eq_refl)) as (y & I & Q). assert (T : existsb (Qeq_bool x) (l ++ m) = true); [|congruence]. apply existsb_exists. exists y. split; [apply in_or_app; now right|now apply Qeq_bool_iff].
Qed.
Lemma distinct_cols a b : a <> [] -> distinct (map snd (concat (lattice a b))) = distinct b.
Proof.
  assert (M : forall x, map snd (map (fun y : Q => (x : Q, y)) b) = b) by (intros x; rewrite map_map; cbn [snd]; apply map_id).
  induction a as [|x a IH]; [congruence|]. intros _. cbn [lattice map concat]. rewrite map_app, M. destruct a as [|x' a]; [cbn; now rewrite app_nil_r|].
  rewrite distinct_ext_app; [apply IH; discriminate|]. intros y I. exists y. split; [|reflexivity]. cbn [map concat]. rewrite map_app, M. apply in_or_app. now left.
Qed.
Lemma distinct_repeat x n r : distinct (repeat x (S n) ++ r) = if existsb (Qeq_bool x) r then distinct r else S (distinct r).
Proof.
  induction n as [|n IH]; [reflexivity|]. change (repeat x (S (S n)) ++ r) with (x :: repeat x (S n) ++ r). cbn [distinct]. rewrite IH.
  assert (T : existsb (Qeq_bool x) (repeat x (S n) ++ r) = true) by (cbn [repeat app existsb]; apply orb_true_iff; left; apply Qeq_bool_refl). now rewrite T.
Qed.
Lemma existsb_repeat x y k : existsb (Qeq_bool x) (repeat y (S k)) = Qeq_bool x y.
Proof. induction k as [|k IH]; [cbn; now rewrite orb_false_r|]. change (repeat y (S (S k))) with (y :: repeat y (S k)). cbn [existsb]. rewrite IH. now destruct (Qeq_bool x y). Qed.
Lemma existsb_rows x k : forall a, existsb (Qeq_bool x) (concat (map (fun y => repeat y (S k)) a)) = existsb (Qeq_bool x) a.
Proof. induction a as [|y a IH]; [reflexivity|]. cbn [map concat]. rewrite existsb_app, IH, existsb_repeat. reflexivity. Qed.
Lemma distinct_rows a b : b <> [] -> distinct (map fst (concat (lattice a b))) = distinct a.
Proof.
  intros NB. assert (E : map fst (concat (lattice a b)) = concat (map (fun y => repeat y (length b)) a)).
  { unfold lattice. rewrite concat_map, map_map. f_equal. apply map_ext. intros x. rewrite map_map. cbn [fst]. clear. induction b as [|y b IH]; [reflexivity|]. cbn. now rewrite IH. }
  rewrite E. destruct b as [|y0 b]; [congruence|]. cbn [length]. generalize (length b) as k. intros k. clear. induction a as [|x a IH]; [reflexivity|]. cbn [map concat]. rewrite distinct_repeat, existsb_rows, IH. reflexivity.
Qed.
Theorem given_grid : forall U C l preds a b u (base first second : C),
  (forall ps, preds = Some ps -> length ps = length l) -> a <> [] -> b <> [] -> apart a -> apart b -> length u = length a * length b ->
  exists fig : figure U C, plot_2d (Some l) preds None None (Some (concat (lattice a b))) (Some u) None base first second false = Ok fig /\
    f_cells fig = lattice a b /\ (forall i j, i < length a -> j < length b -> forall d, nth j (nth i (f_values fig) []) d = nth (i * length b + j) u d) /\ points_ok (Some l) preds base first second (f_points fig).
Proof.
  intros U C l preds a b u base first second PL NA NB AA AB LU. unfold plot_2d, rejected. cbn [none negb andb orb]. rewrite distinct_rows, distinct_cols by assumption. rewrite (distinct_apart a AA), (distinct_apart b AB).
  assert (V : exists vs, reshape2 (length a) (length b) u = Ok vs) by (unfold reshape2; rewrite LU, Nat.eqb_refl; eexists; reflexivity). destruct V as (vs & V).
  destruct (drawn_lattice (U := U) (Some l) preds base first second (fun l' ps X Y => match X in _ = y return match y with Some l' => length ps = length l' | None => True end with eq_refl => PL ps Y end) (Some u) None a b vs V) as (fig & D & F1 & F2 & F3).
  exists fig. split; [exact D|]. split; [exact F1|]. split; [|exact F3]. intros i j I J d. rewrite F2. unfold reshape2 in V. rewrite LU, Nat.eqb_refl in V. injection V as <-.
  set (f := fun i => _). rewrite (nth_indep _ [] (f 0)) by (rewrite map_length, seq_length; lia). rewrite map_nth, seq_nth by lia. unfold f. cbn [Nat.add].
  rewrite <- (firstn_skipn (length b) (skipn (i * length b) u)) at 1 || idtac.
  assert (K : nth (i * length b + j) u d = nth j (skipn (i * length b) u) d). { clear. revert u. induction (i * length b) as [|n IH]; intros u; [reflexivity|]. destruct u as [|x u]; [now destruct j|]. cbn. apply IH. }
  rewrite K. generalize (skipn (i * length b) u) as s. intros s. clear - J. revert j s J. induction (length b) as [|k IH]; intros j s J; [lia|]. destruct s as [|x s]; [reflexivity|]. destruct j as [|j]; [reflexivity|]. cbn. apply IH. lia.
Qed.
Theorem plot_rejects : forall U C inputs preds xx1 xx2 grid gu fn (base first second : C) ticks,
  inputs = None /\ (xx1 = None \/ xx2 = None) \/ (gu = None /\ fn = None) \/ (grid = None /\ gu <> None) ->
  plot_2d (U := U) inputs preds xx1 xx2 grid gu fn base first second ticks = Err ValueError.
Proof.
  intros U C inputs preds xx1 xx2 grid gu fn base first second ticks H. unfold plot_2d.
  assert (R : rejected inputs xx1 xx2 grid gu fn = true); [|now rewrite R]. unfold rejected.
  destruct H as [(-> & [-> | ->])|[(-> & ->)|(-> & N)]]; cbn [none]; rewrite ?andb_true_r, ?orb_true_r; try reflexivity.
  destruct gu; [|congruence]. cbn [none negb andb]. now rewrite !orb_true_r.
Qed.
Theorem ticks_raise : forall U C inputs preds xx1 xx2 grid gu fn (base first second : C) (fig : figure U C),
  plot_2d inputs preds xx1 xx2 grid gu fn base first second false = Ok fig -> plot_2d inputs preds xx1 xx2 grid gu fn base first second true = Err AttributeError.
Proof.
  intros U C inputs preds xx1 xx2 grid gu fn base first second fig. unfold plot_2d. destruct (rejected inputs xx1 xx2 grid gu fn); [discriminate|].
  assert (D : forall g n k, drawn inputs preds gu fn base first second false g n k = Ok fig -> drawn inputs preds gu fn base first second true g n k = Err AttributeError).
  { intros g n k. unfold drawn. destruct (reshape2 n k match gu with Some u => u | None => match fn with Some f => f g | None => [] end end); [|discriminate]. cbn [bind]. destruct (reshape2 n k g); [|discriminate]. cbn [bind].
    destruct (match inputs with Some _ => _ | None => _ end); [reflexivity|discriminate]. }
  destruct grid as [g|]; [apply D|]. destruct (axes inputs xx1 xx2); [|discriminate]. cbn [bind]. apply D.
Qed.

Theorem grid_alone : forall U C g u preds fn (base first second : C), plot_2d (U := U) None preds None None (Some g) (Some u) fn base first second false = Err ValueError.
Proof. intros. apply plot_rejects. left. split; [reflexivity|]. now left. Qed.
