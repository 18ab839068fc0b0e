From Coq Require Import List Arith Bool ZArith Reals Lra Lia Psatz.
From Verif Require Import Lib TempModel TempSpec PredSpec LapModel LapSpec LapProofs2 SngpModel SngpSpec SngpProofs SngpProofs2 ProbitModel ProbitSpec.
Import ListNotations.
Open Scope R_scope.

Lemma rover_app a b f : rover (a + b) f = rover a f + rover b (fun i => f (a + i)%nat).
Proof.
  induction b as [|b IH]; [rewrite Nat.add_0_r, rover_0; ring|]. rewrite Nat.add_succ_r, !rover_S, IH. ring.
Qed.
Lemma isum_rover n f : isum n f = rover n f. Proof. reflexivity. Qed.
Lemma rover_eye n f i : (i < n)%nat -> rover n (fun j => f j * (if (i =? j)%nat then 1 else 0)) = f i.
Proof.
  intros H. replace n with (i + S (n - i - 1))%nat by lia. rewrite rover_app, rover_shift. rewrite Nat.add_0_r, Nat.eqb_refl.
  rewrite (rover_const0 i), (rover_const0 (n - i - 1)); [ring| |]; intros j Hj; cbn beta; destruct (Nat.eqb_spec i j); try lia; try ring.
  - destruct (Nat.eqb_spec i (i + S j)); [lia|ring].
  - destruct (Nat.eqb_spec i (i + S j)); [lia|ring].
Qed.
Lemma rover_eye' n f i : (i < n)%nat -> rover n (fun j => (if (j =? i)%nat then 1 else 0) * f j) = f i.
Proof. intros H. rewrite <- (rover_eye n f i H). apply rover_ext. intros j _. rewrite Nat.eqb_sym. ring. Qed.
(** associativity of a product *)
Lemma rover_assoc n m x A y : rover n (fun i => x i * rover m (fun j => A i j * y j)) = rover m (fun j => rover n (fun i => x i * A i j) * y j).
Proof.
  transitivity (rover n (fun i => rover m (fun j => x i * A i j * y j))).
  - apply rover_ext. intros i _. rewrite <- rover_scale_l. apply rover_ext. intros j _. ring.
  - rewrite rover_swap. apply rover_ext. intros j _. rewrite <- rover_scale. reflexivity.
Qed.

Lemma inner_sub_r np x y z : inner np x (fun p => y p - z p) = inner np x y - inner np x z.
Proof. unfold inner. rewrite <- rover_sub. apply rover_ext. intros; ring. Qed.
Lemma inner_add_r np x y z : inner np x (fun p => y p + z p) = inner np x y + inner np x z.
Proof. unfold inner. rewrite <- rover_add. apply rover_ext. intros; ring. Qed.
Lemma inner_comb np n rows w x : inner np x (combination n rows w) = rover n (fun l => w l * inner np x (rows l)).
Proof.
  unfold inner, combination. rewrite (rover_ext np (fun i => x i * rover n (fun l => w l * rows l i)) (fun i => rover n (fun l => w l * (x i * rows l i)))).
  - rewrite rover_swap. apply rover_ext. intros l _. now rewrite rover_scale_l.
  - intros i _. rewrite <- rover_scale_l. apply rover_ext. intros; ring.
Qed.
Lemma inner_ext np x y x' y' : (forall p, (p < np)%nat -> x p = x' p) -> (forall p, (p < np)%nat -> y p = y' p) -> inner np x y = inner np x' y'.
Proof. intros H H'. apply rover_ext. intros p Hp. now rewrite H, H'. Qed.

Lemma inner_sq_add np x y : inner np (fun p => x p + y p) (fun p => x p + y p) = inner np x x + 2 * inner np x y + inner np y y.
Proof. unfold inner. rewrite <- rover_scale_l, <- !rover_add. apply rover_ext. intros; ring. Qed.

Lemma finite_choice n (P : nat -> (nat -> R) -> Prop) : (forall j, exists w, P j w) -> exists Y, forall j, (j < n)%nat -> P j (Y j).
Proof.
  intros H. induction n as [|n [Y IH]]; [exists (fun _ _ => 0); intros; lia|]. destruct (H n) as [w Hw].
  exists (fun j => if (j =? n)%nat then w else Y j). intros j Hj. destruct (Nat.eqb_spec j n) as [->|]; [exact Hw|apply IH; lia].
Qed.
Lemma inverse_exists n A c : symmetric n A -> 0 < c -> (forall v, c * inner n v v <= quad n A v) -> exists Y, inverse_of n A Y.
Proof.
  intros SA Pc H. destruct (cholesky_exists n A c SA Pc H) as [L HL].
  destruct (finite_choice n (fun j w => solves n A w (fun i => if (i =? j)%nat then 1 else 0))) as [Y HY].
  - intros j. apply (cholesky_solvable n A L _ HL).
  - exists (fun k j => Y j k). intros i j Hi Hj. exact (HY j Hj i Hi).
Qed.
Lemma inverse_symmetric n A Y : symmetric n A -> inverse_of n A Y -> symmetric n Y.
Proof.
  intros SA HY i j Hi Hj.
  transitivity (rover n (fun k => rover n (fun l => Y l i * A l k) * Y k j)).
  - rewrite <- (rover_eye' n (fun k => Y k j) i Hi). apply rover_ext. intros k Hk. f_equal. rewrite <- (HY k i Hk Hi). apply rover_ext. intros l Hl. rewrite (SA l k) by assumption. ring.
  - rewrite <- (rover_assoc n n (fun l => Y l i) A (fun k => Y k j)). rewrite <- (rover_eye n (fun l => Y l i) j Hj). apply rover_ext. intros l Hl. f_equal. rewrite (HY l j Hl Hj), Nat.eqb_sym. reflexivity.
Qed.

Section Schur.
Variables np n B : nat.
Variables rows g X : nat -> nat -> R.
Let G l l' := inner np (rows l) (rows l').
Let N l a := inner np (rows l) (g a).
Hypothesis HX : inverse_of n G X.
Hypothesis SX : symmetric n X.
Definition schur_M (a j : nat) : R := rover n (fun l => N l a * X l j).
Definition schur_C (a b : nat) : R := inner np (g a) (g b) - rover n (fun j => schur_M a j * N j b).
Let r a := residual n rows (g a) (schur_M a).
Lemma MG a l : (l < n)%nat -> rover n (fun j => schur_M a j * G l j) = N l a.
Proof.
  intros Hl. unfold schur_M.
  rewrite <- (rover_assoc n n (fun i => N i a) X (G l)).
  rewrite <- (rover_eye n (fun i => N i a) l Hl). apply rover_ext. intros i Hi. f_equal. rewrite <- (HX l i Hl Hi). apply rover_ext. intros j Hj.
  rewrite (SX i j) by assumption. ring.
Qed.
Lemma orth a l : (l < n)%nat -> inner np (rows l) (r a) = 0.
Proof.
  intros Hl. unfold r, residual. rewrite inner_sub_r, inner_comb. fold (N l a).
  assert (E : rover n (fun j => schur_M a j * inner np (rows l) (rows j)) = N l a) by (exact (MG a l Hl)). rewrite E. ring.
Qed.
Lemma orth_comb a w : inner np (r a) (combination n rows w) = 0.
Proof. rewrite inner_comb. apply rover_const0. intros l Hl. rewrite inner_comm, orth by assumption. ring. Qed.
Lemma C_half a b : schur_C a b = inner np (r a) (g b).
Proof.
  rewrite inner_comm. unfold r, residual. rewrite inner_sub_r, inner_comb. unfold schur_C. rewrite inner_comm. f_equal. apply rover_ext. intros j _. unfold N. now rewrite (inner_comm np (g b)).
Qed.
Lemma C_res a b : schur_C a b = inner np (r a) (r b).
Proof. rewrite C_half. unfold r at 3. unfold residual. rewrite inner_sub_r, orth_comb. ring. Qed.
Lemma C_sym a b : schur_C a b = schur_C b a.
Proof. rewrite !C_res. apply inner_comm. Qed.
Lemma schur_distance a : squared_distance np n rows (g a) (schur_C a a).
Proof.
  split; [exists (schur_M a); apply C_res|]. intros v. rewrite C_res.
  set (d := combination n rows (fun j => schur_M a j - v j)).
  rewrite (inner_ext np (residual n rows (g a) v) (residual n rows (g a) v) (fun p => r a p + d p) (fun p => r a p + d p)).
  - rewrite inner_sq_add. assert (E : inner np (r a) d = 0) by (unfold d; apply orth_comb). rewrite E. pose proof (inner_nonneg np d). lra.
  - intros p _. unfold d, r, residual, combination. rewrite (rover_ext n (fun l => (schur_M a l - v l) * rows l p) (fun l => schur_M a l * rows l p - v l * rows l p)) by (intros; ring). rewrite rover_sub. ring.
  - intros p _. unfold d, r, residual, combination. rewrite (rover_ext n (fun l => (schur_M a l - v l) * rows l p) (fun l => schur_M a l * rows l p - v l * rows l p)) by (intros; ring). rewrite rover_sub. ring.
Qed.
Lemma quad_C v : quad B schur_C v = inner np (combination B r v) (combination B r v).
Proof.
  rewrite inner_comb. unfold quad. apply rover_ext. intros a _. rewrite (inner_comm np _ (r a)), inner_comb, <- rover_scale_l. apply rover_ext. intros b _. rewrite C_res. ring.
Qed.
Definition appended (l : nat) : nat -> R := if (l <? n)%nat then rows l else g (l - n).
Variable c : R.
Hypothesis Hc : independent np (n + B) appended c.
Lemma C_lower v : c * inner B v v <= quad B schur_C v.
Proof.
  rewrite quad_C. destruct Hc as [Pc H].
  set (u l := if (l <? n)%nat then - rover B (fun a => v a * schur_M a l) else v (l - n)%nat).
  specialize (H u). rewrite (inner_ext np (combination B r v) (combination B r v) (combination (n + B) appended u) (combination (n + B) appended u)).
  - eapply Rle_trans; [|exact H]. apply Rmult_le_compat_l; [lra|]. unfold inner at 2. rewrite rover_app.
    rewrite (rover_ext B (fun i => u (n + i)%nat * u (n + i)%nat) (fun i => v i * v i)).
    + pose proof (rover_nonneg n (fun i => u i * u i)) as Q. assert (0 <= rover n (fun i => u i * u i)) by (apply Q; intros; nra). unfold inner. lra.
    + intros i _. unfold u. replace (n + i <? n)%nat with false by (symmetry; apply Nat.ltb_ge; lia). replace (n + i - n)%nat with i by lia. reflexivity.
  - intros p _. unfold combination. rewrite rover_app. rewrite (rover_ext n (fun l => u l * appended l p) (fun l => (- rover B (fun a => v a * schur_M a l)) * rows l p)).
    + rewrite (rover_ext B (fun i => u (n + i)%nat * appended (n + i) p) (fun i => v i * g i p)).
      * unfold r, residual, combination. rewrite (rover_ext B _ (fun l => v l * g l p - v l * rover n (fun j => schur_M l j * rows j p))) by (intros; ring).
        rewrite rover_sub, (rover_assoc B n v schur_M (fun j => rows j p)). rewrite (rover_ext n (fun l => - _ * _) (fun l => (-1) * (rover B (fun a => v a * schur_M a l) * rows l p))) by (intros; ring). rewrite rover_scale_l. ring.
      * intros i _. unfold u, appended. replace (n + i <? n)%nat with false by (symmetry; apply Nat.ltb_ge; lia). replace (n + i - n)%nat with i by lia. reflexivity.
    + intros l Hl. unfold u, appended. apply Nat.ltb_lt in Hl. rewrite Hl. reflexivity.
  - intros p _. unfold combination. rewrite rover_app. rewrite (rover_ext n (fun l => u l * appended l p) (fun l => (- rover B (fun a => v a * schur_M a l)) * rows l p)).
    + rewrite (rover_ext B (fun i => u (n + i)%nat * appended (n + i) p) (fun i => v i * g i p)).
      * unfold r, residual, combination. rewrite (rover_ext B _ (fun l => v l * g l p - v l * rover n (fun j => schur_M l j * rows j p))) by (intros; ring).
        rewrite rover_sub, (rover_assoc B n v schur_M (fun j => rows j p)). rewrite (rover_ext n (fun l => - _ * _) (fun l => (-1) * (rover B (fun a => v a * schur_M a l) * rows l p))) by (intros; ring). rewrite rover_scale_l. ring.
      * intros i _. unfold u, appended. replace (n + i <? n)%nat with false by (symmetry; apply Nat.ltb_ge; lia). replace (n + i - n)%nat with i by lia. reflexivity.
    + intros l Hl. unfold u, appended. apply Nat.ltb_lt in Hl. rewrite Hl. reflexivity.
Qed.
Lemma C_invertible : exists Y, inverse_of B schur_C Y.
Proof. apply (inverse_exists B schur_C c); [intros a b _ _; apply C_sym|exact (proj1 Hc)|exact C_lower]. Qed.
Variable Cinv : nat -> nat -> R.
Hypothesis HC : inverse_of B schur_C Cinv.
Definition schur_T (l a : nat) : R := rover B (fun b => schur_M b l * Cinv b a).
Definition schur_X (l k : nat) : R :=
  if (l <? n)%nat then if (k <? n)%nat then X l k + rover B (fun a => schur_T l a * schur_M a k) else - schur_T l (k - n)%nat
  else if (k <? n)%nat then - schur_T k (l - n)%nat else Cinv (l - n)%nat (k - n)%nat.
Lemma Cinv_sym : symmetric B Cinv.
Proof. apply (inverse_symmetric B schur_C); [intros a b _ _; apply C_sym|exact HC]. Qed.
Lemma TM l k : (l < n)%nat -> (k < n)%nat -> rover B (fun a => schur_T l a * schur_M a k) = rover B (fun a => schur_T k a * schur_M a l).
Proof.
  intros Hl Hk. unfold schur_T. rewrite <- (rover_assoc B B (fun b => schur_M b l) Cinv (fun a => schur_M a k)).
  rewrite (rover_ext B (fun i => schur_M i l * _) (fun a => rover B (fun b => schur_M b k * Cinv b a) * schur_M a l)); [reflexivity|].
  intros i Hi. rewrite Rmult_comm. f_equal. apply rover_ext. intros j Hj. rewrite (Cinv_sym i j) by assumption. ring.
Qed.
Lemma X_sym : symmetric (n + B) schur_X.
Proof.
  intros l k Hl Hk. unfold schur_X. destruct (Nat.ltb_spec l n), (Nat.ltb_spec k n); try reflexivity.
  - rewrite SX, TM by assumption. reflexivity.
  - apply Cinv_sym; lia.
Qed.
(** G M' = N, applied to Cinv *)
Lemma GT l a : (l < n)%nat -> rover n (fun j => G l j * schur_T j a) = rover B (fun b => N l b * Cinv b a).
Proof.
  intros Hl. unfold schur_T.
  rewrite (rover_assoc n B (G l) (fun j b => schur_M b j) (fun b => Cinv b a)). apply rover_ext. intros b _. f_equal.
  rewrite <- (MG b l Hl). apply rover_ext. intros j _. ring.
Qed.
Lemma NT b a : (b < B)%nat -> (a < B)%nat -> rover n (fun j => N j b * schur_T j a) = rover B (fun d => inner np (g b) (g d) * Cinv d a) - (if (b =? a)%nat then 1 else 0).
Proof.
  intros Hb Ha. unfold schur_T. rewrite (rover_assoc n B (fun j => N j b) (fun j d => schur_M d j) (fun d => Cinv d a)).
  rewrite <- (HC b a Hb Ha), <- rover_sub. apply rover_ext. intros d _. rewrite (C_sym b d). unfold schur_C. rewrite (inner_comm np (g d)).
  rewrite (rover_ext n (fun i => N i b * schur_M d i) (fun j => schur_M d j * N j b)) by (intros; ring). ring.
Qed.
Let G' l l' := inner np (appended l) (appended l').
Lemma app_lo l : (l < n)%nat -> appended l = rows l.
Proof. intros H. unfold appended. apply Nat.ltb_lt in H. now rewrite H. Qed.
Lemma app_hi a : appended (n + a) = g a.
Proof. unfold appended. replace (n + a <? n)%nat with false by (symmetry; apply Nat.ltb_ge; lia). f_equal. lia. Qed.
Lemma SX_ll l k : (l < n)%nat -> (k < n)%nat -> schur_X l k = X l k + rover B (fun a => schur_T l a * schur_M a k).
Proof. intros H K. unfold schur_X. apply Nat.ltb_lt in H, K. now rewrite H, K. Qed.
Lemma SX_lh l a : (l < n)%nat -> schur_X l (n + a) = - schur_T l a.
Proof. intros H. unfold schur_X. apply Nat.ltb_lt in H. rewrite H. replace (n + a <? n)%nat with false by (symmetry; apply Nat.ltb_ge; lia). now replace (n + a - n)%nat with a by lia. Qed.
Lemma SX_hl a k : (k < n)%nat -> schur_X (n + a) k = - schur_T k a.
Proof. intros H. unfold schur_X. apply Nat.ltb_lt in H. rewrite H. replace (n + a <? n)%nat with false by (symmetry; apply Nat.ltb_ge; lia). now replace (n + a - n)%nat with a by lia. Qed.
Lemma SX_hh a b : schur_X (n + a) (n + b) = Cinv a b.
Proof. unfold schur_X. replace (n + a <? n)%nat with false by (symmetry; apply Nat.ltb_ge; lia). replace (n + b <? n)%nat with false by (symmetry; apply Nat.ltb_ge; lia). now replace (n + a - n)%nat with a by lia; replace (n + b - n)%nat with b by lia. Qed.
Lemma schur_inverse : inverse_of (n + B) G' schur_X.
Proof.
  intros i j Hi Hj. rewrite rover_app.
  destruct (Nat.lt_ge_cases j n) as [Lj|Lj].
  - (* left columns *)
    rewrite (rover_ext n _ (fun k => inner np (appended i) (rows k) * X k j + rover B (fun a => inner np (appended i) (rows k) * schur_T k a * schur_M a j))).
    2:{ intros k Hk. unfold G'. rewrite (app_lo k Hk), SX_ll by assumption. rewrite Rmult_plus_distr_l, <- rover_scale_l. f_equal. apply rover_ext. intros; ring. }
    rewrite (rover_ext B _ (fun a => - (inner np (appended i) (g a) * schur_T j a))).
    2:{ intros a _. unfold G'. rewrite app_hi, SX_hl by assumption. ring. }
    rewrite rover_add, rover_swap.
    rewrite (rover_ext B (fun a => - _) (fun a => (-1) * (inner np (appended i) (g a) * schur_T j a))) by (intros; ring). rewrite rover_scale_l.
    rewrite (rover_ext B (fun j0 => rover n _) (fun a => rover n (fun k => inner np (appended i) (rows k) * schur_T k a) * schur_M a j)) by (intros; apply rover_scale).
    destruct (Nat.lt_ge_cases i n) as [Li|Li].
    + rewrite (app_lo i Li). rewrite (rover_ext n (fun k => inner np (rows i) (rows k) * X k j) (fun k => G i k * X k j)) by reflexivity. rewrite (HX i j Li Lj).
      rewrite (rover_ext B (fun a => rover n _ * schur_M a j) (fun a => rover B (fun b => N i b * Cinv b a) * schur_M a j)) by (intros a Ha; f_equal; exact (GT i a Li)).
      rewrite (rover_ext B (fun a => inner np (rows i) (g a) * schur_T j a) (fun a => N i a * rover B (fun b => Cinv a b * schur_M b j))).
      * rewrite (rover_assoc B B (N i) Cinv (fun b => schur_M b j)). ring.
      * intros a Ha. unfold schur_T. fold (N i a). f_equal. apply rover_ext. intros b Hb. rewrite (Cinv_sym a b) by assumption. ring.
    + replace i with (n + (i - n))%nat by lia. set (b := (i - n)%nat). assert (Hb : (b < B)%nat) by (unfold b; lia). rewrite app_hi.
      replace (n + b =? j)%nat with false by (symmetry; apply Nat.eqb_neq; lia).
      rewrite (rover_ext n (fun k => inner np (g b) (rows k) * X k j) (fun k => N k b * X k j)) by (intros; unfold N; now rewrite inner_comm). fold (schur_M b j).
      rewrite (rover_ext B (fun a => rover n _ * schur_M a j) (fun a => rover B (fun d => inner np (g b) (g d) * Cinv d a) * schur_M a j - (if (b =? a)%nat then 1 else 0) * schur_M a j)).
      2:{ intros a Ha. rewrite <- Rmult_minus_distr_r. f_equal. rewrite <- (NT b a Hb Ha). apply rover_ext. intros k _. unfold N. now rewrite inner_comm. }
      rewrite rover_sub. rewrite (rover_ext B (fun a => (if (b =? a)%nat then 1 else 0) * schur_M a j) (fun a => schur_M a j * (if (b =? a)%nat then 1 else 0))) by (intros; ring). rewrite (rover_eye B (fun a => schur_M a j) b Hb).
      rewrite (rover_ext B (fun a => inner np (g b) (g a) * schur_T j a) (fun a => inner np (g b) (g a) * rover B (fun d => Cinv a d * schur_M d j))).
      * rewrite (rover_assoc B B (fun a => inner np (g b) (g a)) Cinv (fun d => schur_M d j)). ring.
      * intros a Ha. unfold schur_T. f_equal. apply rover_ext. intros d Hd. rewrite (Cinv_sym a d) by assumption. ring.
  - (* right columns *)
    replace j with (n + (j - n))%nat by lia. set (a := (j - n)%nat). assert (Ha : (a < B)%nat) by (unfold a; lia).
    rewrite (rover_ext n _ (fun k => (-1) * (inner np (appended i) (rows k) * schur_T k a))).
    2:{ intros k Hk. unfold G'. rewrite (app_lo k Hk), SX_lh by assumption. ring. }
    rewrite (rover_ext B _ (fun d => inner np (appended i) (g d) * Cinv d a)).
    2:{ intros d _. unfold G'. now rewrite app_hi, SX_hh. }
    rewrite rover_scale_l. destruct (Nat.lt_ge_cases i n) as [Li|Li].
    + rewrite (app_lo i Li). replace (i =? n + a)%nat with false by (symmetry; apply Nat.eqb_neq; lia).
      rewrite (rover_ext n (fun k => inner np (rows i) (rows k) * schur_T k a) (fun k => G i k * schur_T k a)) by reflexivity. rewrite (GT i a Li). unfold N. ring.
    + replace i with (n + (i - n))%nat by lia. set (b := (i - n)%nat). assert (Hb : (b < B)%nat) by (unfold b; lia). rewrite app_hi.
      rewrite (rover_ext n (fun k => inner np (g b) (rows k) * schur_T k a) (fun k => N k b * schur_T k a)) by (intros; unfold N; now rewrite inner_comm). rewrite (NT b a Hb Ha).
      replace (n + b =? n + a)%nat with (b =? a)%nat by (destruct (Nat.eqb_spec b a), (Nat.eqb_spec (n + b) (n + a)); try reflexivity; lia). ring.
Qed.
End Schur.
