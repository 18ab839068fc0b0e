(** The deep residual network (C104) and the constant models (C106). *)
From Coq Require Import List Arith Lia Bool QArith Lqa.
From Verif Require Import Lib QuantModel ConfRegModel NetModel NetSpec NetProofs.
Import ListNotations.
Open Scope nat_scope.

Lemma add_row_same : forall h x, length h = length x -> add_row h x = Ok (zip_with Qplus h x).
Proof. intros h x H. unfold add_row. rewrite H, Nat.eqb_refl. reflexivity. Qed.

Lemma add_batch_same : forall h x, map (@length Q) h = map (@length Q) x ->
  add_batch h x = Ok (zip_with (zip_with Qplus) h x).
Proof.
  unfold add_batch. induction h as [|r h IH]; intros [|s x] H; cbn [map] in H; try discriminate; [reflexivity|].
  injection H as H1 H2. cbn [combine mapM fst snd]. rewrite (add_row_same r s H1). unfold bind at 1.
  rewrite (IH x H2). reflexivity.
Qed.

Lemma zip_with_length : forall {A B C} (f : A -> B -> C) l m, length (zip_with f l m) = Nat.min (length l) (length m).
Proof. intros. unfold zip_with. rewrite map_length, combine_length. reflexivity. Qed.

Lemma zip_rows : forall d h x, rows_of d h -> rows_of d x -> length h = length x -> rows_of d (zip_with (zip_with Qplus) h x).
Proof.
  unfold rows_of. intros d h x Hh. revert x. induction Hh as [|r h Hr Hh IH]; intros [|s x] Hx Hl; try discriminate; [constructor|].
  inversion Hx; subst. unfold zip_with at 1. cbn [combine map fst snd]. constructor.
  - rewrite zip_with_length. lia.
  - apply IH; [assumption|]. cbn in Hl. lia.
Qed.

Lemma shapes_eq : forall d h x, rows_of d h -> rows_of d x -> length h = length x -> map (@length Q) h = map (@length Q) x.
Proof.
  intros d h x Hh. revert x. induction Hh as [|r h Hr Hh IH]; intros [|s x] Hx Hl; try discriminate; [reflexivity|].
  inversion Hx; subst. cbn [map]. rewrite (IH x) by (try assumption; cbn in Hl; lia). congruence.
Qed.

Lemma keeps_length : forall f, keeps_shape f -> forall y, length (f y) = length y.
Proof. intros f Hf y. rewrite <- (map_length (@length Q) (f y)), Hf, map_length. reflexivity. Qed.

Section Res.
Variable ps : params.
Variable rate : Q.
Variable mask : nat -> nat -> nat -> bool.
Variable train : bool.

(** the residual loop: block [k] adds the output of layer [k] to its input *)
Fixpoint res_run (acts : list (batch -> batch)) (k : nat) (ls : list layer) (h : batch) : batch :=
  match ls with
  | [] => h
  | l :: r => res_run acts (S k) r
      (zip_with (zip_with Qplus) h (dropout rate mask (negb train) k (nth k acts ident (map (affine l) h))))
  end.

Lemma residual_loop_ok : forall w acts ls widths k h,
  Forall keeps_shape acts -> Forall (fun l => well_shaped l w w) ls -> rows_of w h ->
  (forall i l, nth_error ls i = Some l -> nth_error widths (k + i) = Some w /\ ps (Hidden (k + i)) = Some l) ->
  residual_loop ps widths rate mask train acts (seq k (length ls)) h = Ok (res_run acts k ls h)
  /\ rows_of w (res_run acts k ls h) /\ length (res_run acts k ls h) = length h.
Proof.
  intros w acts ls. induction ls as [|l ls IH]; intros widths k h Ha Hc Hx Hp.
  - split; [reflexivity|split; [exact Hx|reflexivity]].
  - cbn [length seq residual_loop res_run]. inversion Hc as [|? ? Hl Hls]; subst.
    destruct (Hp 0 l eq_refl) as (Hw & Hl0). rewrite Nat.add_0_r in Hw, Hl0.
    rewrite (update_ok ps rate mask train widths acts k w l w h Hw Hl0 Hl Hx). unfold bind at 1.
    set (y := dropout rate mask (negb train) k (nth k acts ident (map (affine l) h))).
    assert (Ry : rows_of w y) by (eapply step_rows; [exact Ha|exact Hl]).
    assert (Ly : length h = length y).
    { unfold y. rewrite (keeps_length (dropout rate mask (negb train) k)) by (intros z; apply dropout_shape).
      rewrite keeps_length by (apply keeps_nth; exact Ha). rewrite map_length. reflexivity. }
    rewrite (add_batch_same h y (shapes_eq w h y Hx Ry Ly)). unfold bind at 1.
    destruct (IH widths (S k) (zip_with (zip_with Qplus) h y) Ha Hls (zip_rows w h y Hx Ry Ly)) as (E & R & L).
    + intros i l0 Hi. replace (S k + i) with (k + S i) by lia. apply Hp. exact Hi.
    + split; [exact E|split; [exact R|]]. rewrite L, zip_with_length, <- Ly. apply Nat.min_id.
Qed.
End Res.

Lemma res_run_blocks : forall rate mask full as' ls lz k h,
  (forall i, nth (k + i) full ident = nth i as' ident) -> length ls = length as' ->
  res_run rate mask false full k (ls ++ [lz]) h = residual_blocks (combine ls as' ++ [(lz, ident)]) h.
Proof.
  intros rate mask full as'. induction as' as [|f as' IH]; intros ls lz k h Hn Hl.
  - destruct ls; [|discriminate]. cbn [app res_run combine residual_blocks]. pose proof (Hn 0) as E. rewrite Nat.add_0_r in E.
    rewrite E. reflexivity.
  - destruct ls as [|l ls]; [discriminate|]. cbn [app res_run combine residual_blocks]. pose proof (Hn 0) as E.
    rewrite Nat.add_0_r in E. rewrite E. cbn [nth negb]. rewrite dropout_det. apply IH; [|cbn in Hl; lia].
    intros i. replace (S k + i) with (k + S i) by lia. rewrite Hn. reflexivity.
Qed.

Lemma residual_run : forall ps widths rate mask train acts l0 ls last d w out x a r,
  widths = repeat w (S (length ls)) -> length widths = length acts -> rev acts = a :: r -> Forall keeps_shape acts ->
  well_shaped l0 d w -> Forall (fun l => well_shaped l w w) ls -> well_shaped last w out ->
  stores ps (l0 :: ls) last -> rows_of d x ->
  deep_residual ps widths rate mask train acts out x
  = Ok (map (affine last) (a (res_run rate mask train (removelast acts) 1 ls (map (affine l0) x)))).
Proof.
  intros ps widths rate mask train acts l0 ls last d w out x a r Hw Hlen Hr Ha H0 Hls Hlast (Hs & Hp) Hx.
  unfold deep_residual, net_call. rewrite Hlen, Nat.eqb_refl, Hr. cbn [negb].
  unfold residual_features. rewrite Hw at 1. cbn [repeat].
  rewrite (dense_ok ps (Hidden 0) l0 d w x (Hs 0 l0 eq_refl) H0 Hx). unfold bind at 2.
  replace (length widths - 1) with (length ls) by (rewrite Hw, repeat_length; lia).
  destruct (residual_loop_ok ps rate mask train w (removelast acts) ls widths 1 (map (affine l0) x)) as (E & R & L).
  - apply removelast_forall. exact Ha.
  - exact Hls.
  - eapply affine_rows. exact H0.
  - intros i l Hi. split; [|apply (Hs (S i) l); exact Hi].
    rewrite Hw. cbn [Nat.add repeat nth_error]. apply nth_error_repeat. apply nth_error_Some. congruence.
  - rewrite E. unfold bind, output_subnet. apply (dense_ok ps Last last w out); [exact Hp|exact Hlast|].
    eapply rows_shape; [|exact R].
    assert (K : keeps_shape a).
    { rewrite Forall_forall in Ha. apply Ha. apply in_rev. rewrite Hr. left. reflexivity. }
    apply K.
Qed.

(** two or more hidden layers, evaluation mode *)
Lemma residual_eval : forall ps widths rate mask a0 amid az l0 mid lz last d w out x,
  widths = repeat w (2 + length mid) -> length amid = length mid -> Forall keeps_shape (a0 :: amid ++ [az]) ->
  well_shaped l0 d w -> Forall (fun l => well_shaped l w w) (mid ++ [lz]) -> well_shaped last w out ->
  stores ps (l0 :: mid ++ [lz]) last -> rows_of d x ->
  deep_residual ps widths rate mask false (a0 :: amid ++ [az]) out x
  = Ok (map (affine last) (az (residual_blocks (combine mid amid ++ [(lz, ident)]) (map (affine l0) x)))).
Proof.
  intros ps widths rate mask a0 amid az l0 mid lz last d w out x Hw Hm Ha H0 Hmid Hlast Hst Hx.
  assert (Er : rev (a0 :: amid ++ [az]) = az :: rev (a0 :: amid)).
  { cbn [rev]. rewrite rev_app_distr. reflexivity. }
  rewrite (residual_run ps widths rate mask false (a0 :: amid ++ [az]) l0 (mid ++ [lz]) last d w out x az (rev (a0 :: amid))); try assumption.
  - assert (Erl : removelast (a0 :: amid ++ [az]) = a0 :: amid).
    { change (a0 :: amid ++ [az]) with ((a0 :: amid) ++ [az]). apply removelast_last. }
    rewrite Erl, (res_run_blocks rate mask (a0 :: amid) amid mid lz 1).
    + reflexivity.
    + intros i. reflexivity.
    + symmetry. exact Hm.
  - rewrite Hw, app_length. cbn [length]. f_equal. lia.
  - rewrite Hw, repeat_length. cbn. rewrite app_length. cbn. lia.
Qed.

(** the first activation is never used once there are two hidden layers *)
Lemma residual_first_activation : forall ps widths rate mask train a a' acts out x, acts <> [] ->
  deep_residual ps widths rate mask train (a :: acts) out x = deep_residual ps widths rate mask train (a' :: acts) out x.
Proof.
  intros ps widths rate mask train a a' acts out x Hne. unfold deep_residual, net_call.
  cbn [length]. destruct (negb (length widths =? S (length acts))); [reflexivity|].
  destruct (rev acts) as [|z r] eqn:E.
  - apply (f_equal (@length (batch -> batch))) in E. rewrite rev_length in E. destruct acts; [congruence|discriminate].
  - cbn [rev]. rewrite E. cbn [app].
    assert (F : residual_features ps widths rate mask train (removelast (a :: acts)) x = residual_features ps widths rate mask train (removelast (a' :: acts)) x).
    { assert (Er : forall b, removelast (b :: acts) = b :: removelast acts) by (intros b; destruct acts; [congruence|reflexivity]).
      rewrite !Er. unfold residual_features. destruct widths as [|w ws]; [reflexivity|].
      destruct (dense ps (Hidden 0) w x) as [h|e]; [|reflexivity]. unfold bind.
      assert (G : forall n k y, residual_loop ps (w :: ws) rate mask train (a :: removelast acts) (seq (S k) n) y
                              = residual_loop ps (w :: ws) rate mask train (a' :: removelast acts) (seq (S k) n) y).
      { induction n as [|n IH]; intros k y; [reflexivity|]. cbn [seq residual_loop].
        assert (U : update ps (w :: ws) rate mask train (a :: removelast acts) (S k) y = update ps (w :: ws) rate mask train (a' :: removelast acts) (S k) y).
        { reflexivity. }
        rewrite U. destruct (update ps (w :: ws) rate mask train (a' :: removelast acts) (S k) y) as [v|e]; [|reflexivity].
        unfold bind. destruct (add_batch y v); [apply IH|reflexivity]. }
      apply G. }
    rewrite F. reflexivity.
Qed.

(** ---- two hidden layers: the features are an affine function of the input ---- *)
Lemma dot_between : forall t x y k, length x = length y ->
  (dot (between t x y) k == (1 - t) * dot x k + t * dot y k)%Q.
Proof.
  intros t x. unfold dot, between. induction x as [|a x IH]; intros [|b y] k H; try discriminate.
  - unfold zip_with, qsum. cbn [combine map fold_right]. ring.
  - destruct k as [|c k]; [unfold zip_with, qsum; cbn [combine map fold_right]; ring|].
    specialize (IH y k ltac:(cbn in H; lia)).
    unfold zip_with in *. cbn [combine map fst snd]. unfold qsum in *. cbn [fold_right]. rewrite IH. ring.
Qed.

Lemma affine_between : forall t l x y, length x = length y ->
  row_eq (affine l (between t x y)) (between t (affine l x) (affine l y)).
Proof.
  intros t l x y H. unfold affine, row_eq, between at 2. unfold zip_with at 1.
  induction (seq 0 (length (snd l))) as [|j js IH]; cbn [map combine]; constructor; [|exact IH].
  cbn [fst snd]. rewrite (dot_between t x y _ H). ring.
Qed.

Lemma row_eq_refl : forall r, row_eq r r.
Proof. unfold row_eq. induction r; constructor; [reflexivity|assumption]. Qed.
Lemma row_eq_trans : forall a b c, row_eq a b -> row_eq b c -> row_eq a c.
Proof.
  unfold row_eq. intros a b c H. revert c. induction H as [|x y a b E H IH]; intros c Hc; inversion Hc; subst; constructor.
  - rewrite E. assumption.
  - apply IH. assumption.
Qed.

Lemma batch_eq_trans : forall a b c, batch_eq a b -> batch_eq b c -> batch_eq a c.
Proof.
  unfold batch_eq. intros a b c H. revert c. induction H as [|x y a b E H IH]; intros c Hc; inversion Hc; subst; constructor.
  - eapply row_eq_trans; eassumption.
  - apply IH. assumption.
Qed.

Lemma between_eq : forall t a a' b b', row_eq a a' -> row_eq b b' -> row_eq (between t a b) (between t a' b').
Proof.
  intros t a a' b b' Ha. unfold between, zip_with, row_eq in *. revert b b'.
  induction Ha as [|x x' a a' E Ha IH]; intros b b' Hb; [constructor|].
  inversion Hb as [|y y' b0 b0' E' Hb']; subst; [constructor|]. cbn [combine map fst snd]. constructor.
  - rewrite E, E'. reflexivity.
  - apply IH. exact Hb'.
Qed.

Lemma plus_between : forall t a b c d, length a = length b -> length a = length c -> length a = length d ->
  row_eq (zip_with Qplus (between t a b) (between t c d)) (between t (zip_with Qplus a c) (zip_with Qplus b d)).
Proof.
  intros t a. unfold between, zip_with, row_eq. induction a as [|x a IH]; intros [|y b] [|z c] [|u d] H1 H2 H3; try discriminate; [constructor|].
  cbn [combine map fst snd]. constructor; [ring|]. apply IH; cbn in *; lia.
Qed.

Lemma plus_eq : forall a a' b b', row_eq a a' -> row_eq b b' -> row_eq (zip_with Qplus a b) (zip_with Qplus a' b').
Proof.
  intros a a' b b' Ha. unfold zip_with, row_eq in *. revert b b'. induction Ha as [|x x' a a' E Ha IH]; intros b b' Hb; [constructor|].
  inversion Hb; subst; [constructor|]. cbn [combine map fst snd]. constructor; [rewrite E, H; reflexivity|apply IH; assumption].
Qed.

Lemma residual_two_layers : forall ps w rate mask a0 az l0 lz d,
  well_shaped l0 d w -> well_shaped lz w w -> ps (Hidden 0) = Some l0 -> ps (Hidden 1) = Some lz ->
  keeps_shape a0 -> keeps_shape az ->
  exists F, (forall x, rows_of d x -> residual_features ps [w; w] rate mask false (removelast [a0; az]) x = Ok (map F x))
    /\ (forall t x y, length x = d -> length y = d -> row_eq (F (between t x y)) (between t (F x) (F y))).
Proof.
  intros ps w rate mask a0 az l0 lz d H0 Hz P0 P1 Ka Kz.
  exists (fun r => zip_with Qplus (affine l0 r) (affine lz (affine l0 r))). split.
  - intros x Hx. unfold residual_features. rewrite (dense_ok ps _ l0 d w x P0 H0 Hx). unfold bind.
    destruct (residual_loop_ok ps rate mask false w (removelast [a0; az]) [lz] [w; w] 1 (map (affine l0) x)) as (E & _).
    + cbn. constructor; [exact Ka|constructor].
    + constructor; [exact Hz|constructor].
    + eapply affine_rows; exact H0.
    + intros [|i] l Hi; cbn in Hi; [|destruct i; discriminate]. injection Hi as <-. split; [reflexivity|exact P1].
    + cbn [length] in E. cbn [Nat.sub length] in *. rewrite E. f_equal. cbn [res_run nth removelast negb]. rewrite dropout_det. unfold ident.
      rewrite map_map. clear. unfold zip_with at 1. induction x as [|r x IH]; [reflexivity|]. cbn [map combine fst snd].
      rewrite IH. reflexivity.
  - intros t x y Hx Hy.
    assert (Lw : forall l r, well_shaped l d w \/ well_shaped l w w -> length (affine l r) = w).
    { intros l r [Hl|Hl]; destruct Hl as (_ & _ & Hl); rewrite affine_length; exact Hl. }
    eapply row_eq_trans; [|apply plus_between; rewrite !Lw by auto; reflexivity].
    apply plus_eq; [apply affine_between; congruence|].
    eapply row_eq_trans; [apply affine_eq, affine_between; congruence|].
    apply affine_between. rewrite !Lw by auto. reflexivity.
Qed.

(** ---- layers that are zero leave the residual stream unchanged ---- *)
Lemma zip_plus_zero : forall h z, length h = length z -> Forall (fun v => v == 0)%Q z -> row_eq (zip_with Qplus h z) h.
Proof.
  unfold zip_with, row_eq. induction h as [|a h IH]; intros [|b z] Hl Hz; try discriminate; [constructor|].
  inversion Hz; subst. cbn [combine map fst snd]. constructor; [rewrite H1; ring|apply IH; [cbn in Hl; lia|assumption]].
Qed.

Lemma nth_zero : forall j r, Forall (fun v => v == 0)%Q r -> (nth j r 0 == 0)%Q.
Proof.
  intros j r H. revert j. induction H as [|v r Hv H IH]; intros [|j]; cbn [nth]; try reflexivity; [exact Hv|apply IH].
Qed.

Lemma zero_layer_map : forall l x, zero_layer l -> Forall (fun v => v == 0)%Q (affine l x).
Proof.
  intros l x (Hk & Hb). apply Forall_forall. intros v Hv. unfold affine in Hv. apply in_map_iff in Hv.
  destruct Hv as (j & <- & _). rewrite (nth_zero j _ Hb).
  assert (D : (dot x (map (fun r => nth j r 0%Q) (fst l)) == 0)%Q).
  { unfold dot. revert x. induction Hk as [|r k Hr Hk IH]; intros x; destruct x as [|a x]; try reflexivity.
    unfold zip_with in *. cbn [map combine fst snd]. unfold qsum in *. cbn [fold_right]. rewrite IH, (nth_zero j r Hr). ring. }
  rewrite D. reflexivity.
Qed.

Lemma residual_zero : forall w (ls : list (layer * (batch -> batch))) h,
  rows_of w h ->
  Forall (fun lf => well_shaped (fst lf) w w /\ zero_layer (fst lf)
     /\ exists g, (forall x, snd lf x = map (map g) x) /\ (forall v, v == 0 -> g v == 0)%Q) ls ->
  batch_eq (residual_blocks ls h) h.
Proof.
  intros w ls. induction ls as [|(l, f) ls IH]; intros h Hh H; [apply batch_eq_refl|].
  inversion H as [|? ? (Hw & Hz & g & Hg & H0) Hr]; subst. cbn [fst snd] in *. cbn [residual_blocks].
  assert (S1 : batch_eq (zip_with (zip_with Qplus) h (f (map (affine l) h))) h).
  { rewrite Hg, map_map. clear IH H Hr. unfold batch_eq. unfold zip_with at 1. induction h as [|r h IHh]; [constructor|].
    cbn [map combine fst snd]. inversion Hh; subst. constructor; [|apply IHh; assumption].
    apply zip_plus_zero.
    - rewrite map_length, affine_length. destruct Hw as (_ & _ & E). congruence.
    - apply Forall_forall. intros v Hv. apply in_map_iff in Hv. destruct Hv as (u & <- & Hu). apply H0.
      pose proof (zero_layer_map l r Hz) as Hz'. rewrite Forall_forall in Hz'. apply Hz'. exact Hu. }
  assert (R1 : rows_of w (zip_with (zip_with Qplus) h (f (map (affine l) h)))).
  { apply zip_rows; [exact Hh| |rewrite Hg, !map_length; reflexivity].
    rewrite Hg, map_map. unfold rows_of. apply Forall_forall. intros r Hr0. apply in_map_iff in Hr0. destruct Hr0 as (u & <- & _).
    rewrite map_length, affine_length. destruct Hw as (_ & _ & E). exact E. }
  exact (batch_eq_trans _ _ _ (IH _ R1 Hr) S1).
Qed.

(** ---- widths that differ ---- *)
Lemma residual_width_mismatch : forall ps w v ws rate mask train acts l0 l1 d out r x,
  w <> v -> w <> 1 -> v <> 1 -> length (w :: v :: ws) = length acts -> Forall keeps_shape acts ->
  well_shaped l0 d w -> well_shaped l1 w v -> ps (Hidden 0) = Some l0 -> ps (Hidden 1) = Some l1 ->
  rows_of d (r :: x) ->
  deep_residual ps (w :: v :: ws) rate mask train acts out (r :: x) = Err TypeError.
Proof.
  intros ps w v ws rate mask train acts l0 l1 d out r x Hwv H1 H2 Hlen Ha H0 Hl1 P0 P1 Hx.
  unfold deep_residual, net_call. rewrite Hlen, Nat.eqb_refl. cbn [negb].
  destruct (rev acts) as [|a q] eqn:E.
  { apply (f_equal (@length (batch -> batch))) in E. rewrite rev_length in E. rewrite E in Hlen. discriminate. }
  unfold residual_features. rewrite (dense_ok ps _ l0 d w _ P0 H0 Hx). unfold bind at 2.
  cbn [length Nat.sub seq residual_loop].
  rewrite (update_ok ps rate mask train (w :: v :: ws) (removelast acts) 1 v l1 w (map (affine l0) (r :: x)));
    [|reflexivity|exact P1|exact Hl1|eapply affine_rows; exact H0].
  unfold bind at 2.
  set (y := dropout rate mask (negb train) 1 (nth 1 (removelast acts) ident (map (affine l1) (map (affine l0) (r :: x))))).
  assert (Ry : rows_of v y) by (eapply step_rows; [apply removelast_forall; exact Ha|exact Hl1]).
  assert (Ly : length y = S (length x)).
  { unfold y. rewrite (keeps_length (dropout rate mask (negb train) 1)) by (intros z; apply dropout_shape).
    rewrite keeps_length by (apply keeps_nth, removelast_forall; exact Ha). rewrite !map_length. reflexivity. }
  destruct y as [|s y]; [discriminate|]. inversion Ry; subst. clear Ly. cbn [map]. unfold add_batch.
  cbn [combine mapM fst snd].
  assert (La : length (affine l0 r) = w) by (rewrite affine_length; destruct H0 as (_ & _ & E0); exact E0).
  unfold add_row at 1. rewrite La.
  destruct (Nat.eqb_spec w (length s)); [congruence|].
  destruct (affine l0 r) as [|p [|p2 t]]; cbn in La; try congruence.
  - destruct s as [|q0 [|q1 s]]; cbn in *; try congruence; reflexivity.
  - destruct s as [|q0 [|q1 s]]; cbn in *; try congruence; reflexivity.
Qed.

(** ---- constant models ---- *)
Lemma constant_spec : forall {X} (c : list Q) (x : list X) i, i < length x -> nth_error (constant_model c x) i = Some c.
Proof.
  intros X c x i H. unfold constant_model. rewrite nth_error_map.
  destruct (nth_error x i) eqn:E; [reflexivity|]. apply nth_error_None in E. lia.
Qed.

Lemma constant_inputs : forall {X Y} (c : list Q) (x : list X) (y : list Y), length x = length y ->
  constant_model c x = constant_model c y.
Proof.
  intros X Y c x. unfold constant_model. induction x as [|a x IH]; intros [|b y] H; try discriminate; [reflexivity|].
  cbn [map]. rewrite (IH y) by (cbn in H; lia). reflexivity.
Qed.

Lemma scalar_constant_spec : forall {X} (s : Q) out (x : list X) i, i < length x ->
  nth_error (scalar_constant_model s out x) i = Some (repeat s out).
Proof.
  intros X s out x i H. unfold scalar_constant_model. rewrite nth_error_map.
  destruct (nth_error x i) eqn:E; [reflexivity|]. apply nth_error_None in E. lia.
Qed.

(** a scalar constant is the constant with equal entries *)
Lemma scalar_is_constant : forall {X} (s : Q) out (x : list X), scalar_constant_model s out x = constant_model (repeat s out) x.
Proof. reflexivity. Qed.

Lemma hyper_spec : forall {X} ndim value dummy dummy' (x : list X),
  hyper_model ndim value dummy x = hyper_model ndim value dummy' x
  /\ (hyper_model ndim value dummy x = Ok (constant_model value x) <-> ndim = 1)
  /\ (ndim <> 1 -> hyper_model ndim value dummy x = Err ValueError).
Proof.
  intros X ndim value dummy dummy' x. unfold hyper_model. destruct (Nat.eqb_spec ndim 1) as [->|Hne]; cbn [negb].
  - split; [reflexivity|]. split; [split; reflexivity|congruence].
  - split; [reflexivity|]. split; [split; [discriminate|congruence]|reflexivity].
Qed.

Lemma scalar_hyper_spec : forall {X} is_float value out dummy dummy' (x : list X),
  scalar_hyper_model is_float value out dummy x = scalar_hyper_model is_float value out dummy' x
  /\ (is_float = true -> scalar_hyper_model is_float value out dummy x = Ok (constant_model (repeat value out) x))
  /\ (is_float = false -> scalar_hyper_model is_float value out dummy x = Err ValueError).
Proof.
  intros X is_float value out dummy dummy' x. unfold scalar_hyper_model. destruct is_float; cbn [negb].
  - split; [reflexivity|split; [reflexivity|discriminate]].
  - split; [reflexivity|split; [discriminate|reflexivity]].
Qed.

(** the linear model is one affine map per row *)
Lemma linear_spec : forall ps last d out x, ps Last = Some last -> well_shaped last d out -> rows_of d x ->
  linear_model ps out x = Ok (map (affine last) x).
Proof. intros ps last d out x Hp Hw Hx. apply (dense_ok ps Last last d out x Hp Hw Hx). Qed.
