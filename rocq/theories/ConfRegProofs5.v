(** The weighted update of adaptive conformal regression, stated without the model's checks. *)
From Coq Require Import List Arith ZArith QArith Qabs Bool Lia Lqa.
From Verif Require Import Lib QuantModel QuantSpec ConfRegModel ConfRegSpec ConfRegProofs QuantProofs ConfRegProofs2.
Import ListNotations.
Open Scope Q_scope.

Lemma sorted_weights_spec ws : sorted_weights ws = true <-> forall i, (S i < length ws)%nat -> nth i ws 0 <= nth (S i) ws 0.
Proof.
  unfold sorted_weights. induction ws as [|a ws IH]; [split; [intros _ i H; inversion H|reflexivity]|].
  destruct ws as [|b ws]; [split; [intros _ i H; cbn in H; lia|reflexivity]|].
  cbn [tl combine forallb fst snd] in *. rewrite andb_true_iff, IH, Qle_bool_iff. split.
  - intros (A & B) [|i] H; [exact A|]. cbn [nth]. apply (B i). cbn [length] in *. lia.
  - intros H. split; [apply (H 0%nat); cbn; lia|]. intros i I. apply (H (S i)). cbn [length] in *. lia.
Qed.
Lemma weights_ok_spec ws : weights_ok ws = true <->
  (forall i, (S i < length ws)%nat -> nth i ws 0 <= nth (S i) ws 0) /\ (forall x, In x ws -> 0 <= x <= 1) /\ Qabs (fold_right Qplus 0 ws - 1) <= 1001 # 100000000.
Proof.
  unfold weights_ok. rewrite !andb_true_iff, sorted_weights_spec, forallb_forall, Qle_bool_iff. split.
  - intros ((A & B) & C). split; [exact A|]. split; [|exact C]. intros x I. specialize (B x I). apply andb_true_iff in B. now rewrite !Qle_bool_iff in B.
  - intros (A & B & C). split; [split|]; [exact A| |exact C]. intros x I. rewrite andb_true_iff, !Qle_bool_iff. now apply B.
Qed.
Theorem weighted_accepts : forall c e t g w h,
  (g <= 0 -> update_error_from c e t g (Some w) (Some h) = Err ValueError /\ update_error_from c e t g None None = Err ValueError) /\
  update_error_from c e t g (Some w) None = Err ValueError /\ update_error_from c e t g None (Some h) = Err ValueError /\
  (0 < g -> ((exists e', update_error_from c e t g (Some w) (Some h) = Ok e') <->
     (forall i, (S i < length w)%nat -> nth i w 0 <= nth (S i) w 0) /\ (forall x, In x w -> 0 <= x <= 1) /\ Qabs (fold_right Qplus 0 w - 1) <= 1001 # 100000000 /\
     (forall x, In x h -> x == 0 \/ x == 1) /\ length w = S (length h))).
Proof.
  intros c e t g w h. destruct (update_rejects c e t g w h) as (A & B & C & D). split; [exact A|]. split; [exact B|]. split; [exact C|].
  intros G. rewrite (D G), weights_ok_spec. tauto.
Qed.
(** the errors that the history has, in order, and the last one *)
Lemma dot_errors w h c : length w = S (length h) ->
  dot w (map (fun x => 1 - x) (h ++ [of_bool c])) == fold_right Qplus 0 (map (fun i => nth i w 0 * (1 - nth i (h ++ [if c then 1 else 0]) 0)) (seq 0 (length w))).
Proof.
  change (if c then 1 else 0) with (of_bool c). unfold dot, qsum. intros L. assert (L' : length w = length (h ++ [of_bool c])) by (rewrite app_length; cbn; lia). clear L. revert L'. generalize (h ++ [of_bool c]) as k. induction w as [|a w IH]; intros [|b k] L; try discriminate L; [reflexivity|].
  cbn [map zip_with length seq fold_right]. rewrite <- seq_shift, map_map. cbn [nth]. apply Qplus_comp; [reflexivity|]. apply IH. cbn in L. lia.
Qed.
Theorem weighted_value : forall lo hi e y t g w h e', update_error (lo, hi) e y t g (Some w) (Some h) = Ok e' ->
  let covered := if Qlt_le_dec y lo then 0 else if Qlt_le_dec hi y then 0 else 1 in
  let step := e + g * (t - fold_right Qplus 0 (map (fun i => nth i w 0 * (1 - nth i (h ++ [covered]) 0)) (seq 0 (length w)))) in
  (step < 0 -> e' == 0) /\ (0 <= step <= 1 -> e' == step) /\ (1 < step -> e' == 1).
Proof.
  intros lo hi e y t g w h e' H covered step. unfold update_error in H. apply update_inv in H.
  destruct H as (G & [(X & _)|(w' & h' & X1 & X2 & W & HB & L & ->)]); [discriminate|]. injection X1 as <-. injection X2 as <-.
  assert (E : of_bool (is_in y (lo, hi)) = covered).
  { unfold covered, is_in. cbn [fst snd]. destruct (Qlt_le_dec y lo) as [A|A].
    - destruct (Qle_bool lo y) eqn:B; [apply Qle_bool_iff in B; exfalso; lra|now rewrite andb_false_r].
    - destruct (Qlt_le_dec hi y) as [B|B].
      + destruct (Qle_bool y hi) eqn:C; [apply Qle_bool_iff in C; exfalso; lra|reflexivity].
      + apply Qle_bool_iff in A, B. now rewrite A, B. }
  assert (Q : e + g * (t - dot w (map (fun x => 1 - x) (h ++ [of_bool (is_in y (lo, hi))]))) == step).
  { unfold step. rewrite dot_errors by exact L. change (if is_in y (lo, hi) then 1 else 0) with (of_bool (is_in y (lo, hi))). now rewrite E. }
  set (s := e + g * (t - dot w _)) in *. clearbody s. clearbody step. unfold clip_error.
  split; [|split]; intros S.
  - assert (A : Qlt_bool 1 s = false) by (apply Qltb_false; lra). rewrite A. assert (B : Qlt_bool s 0 = true) by (apply Qltb_true; lra). now rewrite B.
  - assert (A : Qlt_bool 1 s = false) by (apply Qltb_false; lra). rewrite A. assert (B : Qlt_bool s 0 = false) by (apply Qltb_false; lra). now rewrite B.
  - assert (A : Qlt_bool 1 s = true) by (apply Qltb_true; lra). rewrite A. reflexivity.
Qed.
Theorem quantile_level_rejects : forall los his ys error, ~ (0 <= error <= 1) -> quantile_quantile los his ys error = Err ValueError.
Proof.
  intros los his ys error H. unfold quantile_quantile. destruct (Qlt_bool error 0) eqn:A; [reflexivity|]. destruct (Qlt_bool 1 error) eqn:B; [reflexivity|].
  apply Qltb_false in A, B. elim H. lra.
Qed.
