(** Proofs for DrawProps: target samples, outputs over devices, and the draws that results depend on. *)
From Coq Require Import List Arith Bool Lia QArith Reals String.
From Verif Require Import Lib ConfRegModel LoaderModel LoaderProofs LoaderProofs2 PredModel PredSpec PredProofs5
  DrawModel DrawSpec DrawProofs DrawProofs2.
Import ListNotations.
Local Notation length := List.length.
Local Notation concat := List.concat.
Local Open Scope nat_scope.

(** ---- an explicit key ---- *)
Theorem sample_with_key : forall label P X Y T (post : key -> P) (out : P -> X -> Y) (noise : key -> nat -> nat -> nat -> nat -> Y -> T) R (quant : list (list T) -> result R) n aux k g loader,
  sample label post out noise n aux (Some k) g loader = (Err ValueError, g)
  /\ quantile label post out noise quant n (Some k) g loader = (Err ValueError, g).
Proof. intros. split; reflexivity. Qed.

(** ---- values ---- *)
Definition numbered {A} (l : list A) : list (nat * A) := combine (seq 0 (length l)) l.
Lemma nth_numbered {A} (l : list A) : forall s j, nth_error (combine (seq s (length l)) l) j = match nth_error l j with Some x => Some (s + j, x) | None => None end.
Proof.
  induction l as [|x l IH]; intros s [|j]; cbn; auto; [now rewrite Nat.add_0_r|]. rewrite IH. destruct (nth_error l j); auto. now rewrite Nat.add_succ_r.
Qed.
Lemma length_numbered {A} (l : list A) : length (combine (seq 0 (length l)) l) = length l.
Proof. rewrite combine_length, seq_length. lia. Qed.

Section Sample.
Variables (label : nat -> nat) (P X Y T : Type) (post : key -> P) (out : P -> X -> Y) (noise : key -> nat -> nat -> nat -> nat -> Y -> T).
Definition sampled (k : key) (xs : list X) : list T :=
  map (fun jy => noise (k ++ [Cut (label 2) 1]) 1 (length xs) 0 (fst jy) (snd jy))
      (combine (seq 0 (length (map (out (post (k ++ [Cut (label 2) 0]))) xs))) (map (out (post (k ++ [Cut (label 2) 0]))) xs)).
Lemma batch_sample_eq n k xs : batch_sample label post out noise n k xs = map (fun i => sampled (k ++ [Cut (label n) i]) xs) (seq 0 n).
Proof.
  unfold batch_sample. change (split label k n) with (map (child label k n) (seq 0 n)). rewrite map_map. apply map_ext. intros i. cbv beta zeta. rewrite !nth_split by lia. cbn [layer_sample seq map hd].
  unfold sampled, child. apply map_ext. intros jy. now rewrite map_length.
Qed.
Lemma length_sampled k xs : length (sampled k xs) = length xs.
Proof. unfold sampled. rewrite map_length, length_numbered, map_length. reflexivity. Qed.
Lemma nth_sampled k xs j x : nth_error xs j = Some x ->
  nth_error (sampled k xs) j = Some (noise (k ++ [Cut (label 2) 1]) 1 (length xs) 0 j (out (post (k ++ [Cut (label 2) 0])) x)).
Proof. intros N. unfold sampled. rewrite nth_error_map, nth_numbered, nth_error_map, N. reflexivity. Qed.
Lemma axis1_rows {A B} (h : nat -> A -> list B) n (bs : list A) : bs <> [] ->
  concat_axis1 n (map (fun b => map (fun i => h i b) (seq 0 n)) bs) = Ok (map (fun i => concat (map (h i) bs)) (seq 0 n)).
Proof.
  intros NE. unfold concat_axis1. destruct bs as [|b0 bs0]; [easy|]. set (bs := b0 :: bs0) in *.
  change (map (fun b => map (fun i => h i b) (seq 0 n)) bs) with (map (fun i => h i b0) (seq 0 n) :: map (fun b => map (fun i => h i b) (seq 0 n)) bs0) at 1.
  cbn iota beta. f_equal. apply map_ext_in. intros i I. apply in_seq in I.
  clear NE. clearbody bs. clear b0 bs0. induction bs as [|b bs IH]; cbn [map flat_map concat]; auto. rewrite IH. f_equal.
  rewrite nth_error_map, (nth_error_nth' (seq 0 n) 0) by (rewrite seq_length; lia). rewrite seq_nth by lia. reflexivity.
Qed.
Lemma sample_eq n g loader : loader <> [] ->
  sample label post out noise n [] None g loader
  = (Ok (map (fun i => concat (map (sampled (g ++ [Cut (label 2) 0; Cut (label n) i])) loader)) (seq 0 n), []), g ++ [Cut (label 2) 0]).
Proof.
  intros NE. unfold sample. rewrite rng_get_eq. f_equal.
  rewrite (map_ext _ _ (fun xs => batch_sample_eq n (g ++ [Cut (label 2) 0]) xs)).
  rewrite (axis1_rows (fun i => sampled ((g ++ [Cut (label 2) 0]) ++ [Cut (label n) i])) n loader NE). cbn [rmap]. do 2 f_equal.
  apply map_ext. intros i. now rewrite <- app_assoc.
Qed.
End Sample.

Theorem sample_rows : forall label P X Y T (post : key -> P) (out : P -> X -> Y) (noise : key -> nat -> nat -> nat -> nat -> Y -> T) n g loader,
  loader <> [] ->
  exists rows, sample label post out noise n [] None g loader = (Ok (rows, []), g ++ [Cut (label 2) 0])
    /\ length rows = n
    /\ forall t, t < n -> length (nth t rows []) = length (concat loader)
       /\ forall l1 xs l2 j x, loader = l1 ++ xs :: l2 -> nth_error xs j = Some x ->
          nth_error (nth t rows []) (length (concat l1) + j)
          = Some (noise (g ++ [Cut (label 2) 0; Cut (label n) t; Cut (label 2) 1]) 1 (length xs) 0 j
                    (out (post (g ++ [Cut (label 2) 0; Cut (label n) t; Cut (label 2) 0])) x)).
Proof.
  intros label P X Y T post out noise n g loader NE. rewrite sample_eq by auto. eexists. split; [reflexivity|].
  rewrite map_length, seq_length. split; [reflexivity|]. intros t L.
  set (h := fun i => concat (map (sampled label P X Y T post out noise (g ++ [Cut (label 2) 0; Cut (label n) i])) loader)).
  replace (nth t (map h (seq 0 n)) []) with (h t).
  2:{ symmetry. apply nth_error_nth. rewrite nth_error_map, (nth_error_nth' (seq 0 n) 0) by (rewrite seq_length; auto). now rewrite seq_nth. }
  assert (LS : forall l, length (concat (map (sampled label P X Y T post out noise (g ++ [Cut (label 2) 0; Cut (label n) t])) l)) = length (concat l)).
  { induction l as [|b l IH]; cbn [map concat]; auto. now rewrite !app_length, IH, length_sampled. }
  split; [apply LS|]. intros l1 xs l2 j x -> N. unfold h. rewrite map_app, concat_app. rewrite nth_error_app2 by (rewrite LS; lia).
  rewrite LS. replace (length (concat l1) + j - length (concat l1)) with j by lia. cbn [map concat].
  rewrite nth_error_app1 by (rewrite length_sampled; apply nth_error_Some; congruence).
  rewrite (nth_sampled _ _ _ _ _ _ _ _ _ _ _ _ N). now rewrite <- !app_assoc.
Qed.

Theorem sample_shared_noise : forall label P X Y T (post : key -> P) (out : P -> X -> Y) (noise : key -> nat -> nat -> nat -> nat -> Y -> T) n g l1 xs l2 xs' l3 rows j t,
  fst (sample label post out noise n [] None g (l1 ++ xs :: l2 ++ xs' :: l3)) = Ok (rows, []) ->
  length xs = length xs' -> j < length xs -> nth_error xs j = nth_error xs' j -> t < n ->
  nth_error (nth t rows []) (length (concat l1) + j) = nth_error (nth t rows []) (length (concat (l1 ++ xs :: l2)) + j).
Proof.
  intros label P X Y T post out noise n g l1 xs l2 xs' l3 rows j t E LL Lj EN Lt.
  destruct (sample_rows label P X Y T post out noise n g (l1 ++ xs :: l2 ++ xs' :: l3)) as (rows' & E' & _ & V); [now destruct l1|].
  rewrite E' in E. cbn [fst] in E. inversion E; subst rows'. clear E. destruct (V t Lt) as [_ V'].
  destruct (nth_error xs j) as [x|] eqn:N; [|apply nth_error_None in N; lia].
  rewrite (V' l1 xs (l2 ++ xs' :: l3) j x) by auto.
  rewrite (V' (l1 ++ xs :: l2) xs' l3 j x); [|now rewrite <- app_assoc|auto]. now rewrite LL.
Qed.

(** rows of one batch: one key each in classification *)
Theorem class_row_keys : forall label Y T (choice : key -> nat -> nat -> Y -> T) k m b t j y, j < b ->
  class_noise label choice k m b t j y = choice (k ++ [Cut (label b) j]) m t y
  /\ forall j', j' <> j -> apart (k ++ [Cut (label b) j]) (k ++ [Cut (label b) j']).
Proof.
  intros label Y T choice k m b t j y L. split; [unfold class_noise; now rewrite nth_split|].
  intros j' N. apply apart_cons_ne. intros E. inversion E. auto.
Qed.

(** ---- auxiliary objects ---- *)
Lemma check_outputs aux : aux <> [] -> Forall (eq "outputs"%string) aux -> check_aux aux = Ok tt.
Proof.
  intros _ F. unfold check_aux. replace (forallb (String.eqb "outputs") aux) with true; auto. symmetry. apply forallb_forall.
  intros s I. rewrite Forall_forall in F. rewrite <- (F s I). apply String.eqb_refl.
Qed.
Lemma mapM_const_ok {A B} (h : A -> B) l : mapM (fun a => rmap (fun _ => h a) (Ok tt)) l = Ok (map h l).
Proof. induction l as [|a l IH]; cbn in *; auto. now rewrite IH. Qed.
Theorem sample_aux : forall label P X Y T (post : key -> P) (out : P -> X -> Y) (noise : key -> nat -> nat -> nat -> nat -> Y -> T) n aux g loader b,
  1 <= n -> aux <> [] -> Forall (eq "outputs"%string) aux -> loader <> [] ->
  (Forall (fun xs => length xs = b) loader ->
   exists rows, sample label post out noise n aux None g loader = (Ok (rows, []), g ++ [Cut (label 2) 0])
     /\ length rows = length loader * n /\ Forall (fun r => length r = b) rows
     /\ forall i xs t, nth_error loader i = Some xs -> t < n ->
        exists plain, fst (sample label post out noise n [] None g [xs]) = Ok (plain, [])
          /\ nth_error rows (i * n + t) = nth_error plain t)
  /\ (forall xs ys, In xs loader -> In ys loader -> length xs <> length ys ->
      fst (sample label post out noise n aux None g loader) = Err ValueError).
Proof.
  intros label P X Y T post out noise n aux g loader b Hn NA FA NE.
  assert (S : sample label post out noise n aux None g loader =
     (rmap (fun s => (s, [])) (concat_axis0 (map (batch_sample label post out noise n (g ++ [Cut (label 2) 0])) loader)), g ++ [Cut (label 2) 0])).
  { unfold sample. rewrite rng_get_eq. f_equal. destruct aux as [|a0 aux0]; [easy|]. rewrite check_outputs by auto. rewrite mapM_const_ok. reflexivity. }
  assert (LB : forall xs, length (batch_sample label post out noise n (g ++ [Cut (label 2) 0]) xs) = n) by (intros; now rewrite batch_sample_eq, map_length, seq_length).
  assert (HB : forall xs, length (hd [] (batch_sample label post out noise n (g ++ [Cut (label 2) 0]) xs)) = length xs).
  { intros xs. rewrite batch_sample_eq. destruct n as [|n']; [lia|]. cbn [seq map hd]. apply length_sampled. }
  rewrite S. split.
  - intros F. unfold concat_axis0. destruct loader as [|x0 ld]; [easy|]. cbn [map]. set (bs := batch_sample label post out noise n (g ++ [Cut (label 2) 0])) in *.
    replace (forallb (fun q => length (hd [] q) =? length (hd [] (bs x0))) (map bs ld)) with true.
    2:{ symmetry. apply forallb_forall. intros q I. apply in_map_iff in I as (xs & <- & I). apply Nat.eqb_eq. rewrite !HB.
        inversion F as [|u w F0 F1]; subst. rewrite Forall_forall in F1. now rewrite (F1 xs I). }
    eexists. split; [reflexivity|]. change (bs x0 :: map bs ld) with (map bs (x0 :: ld)). set (l := x0 :: ld) in *. clearbody l. clear S NE x0 ld.
    split; [|split].
    + clear F. induction l as [|xs l IH]; cbn [map concat length]; auto. rewrite app_length, IH, LB. lia.
    + apply Forall_forall. intros r I. apply in_concat in I as (q & I & J). apply in_map_iff in I as (xs & <- & I). unfold bs in J. rewrite batch_sample_eq in J.
      apply in_map_iff in J as (i & <- & _). rewrite length_sampled. rewrite Forall_forall in F. auto.
    + intros i xs t Ni Lt. exists (bs xs). split.
      * unfold bs. rewrite sample_eq by easy. rewrite batch_sample_eq. cbn [fst map concat]. do 2 f_equal. apply map_ext. intros u. rewrite app_nil_r, <- app_assoc. reflexivity.
      * clear F. revert i Ni. induction l as [|ys l IH]; intros [|i] Ni; cbn [nth_error map concat] in *; try discriminate.
        -- inversion Ni; subst. cbn. apply nth_error_app1. now rewrite LB.
        -- rewrite nth_error_app2 by (rewrite LB; lia). rewrite LB. replace (Datatypes.S i * n + t - n) with (i * n + t) by lia. now apply IH.
  - intros xs ys I J N. cbn [fst]. unfold concat_axis0. destruct loader as [|x0 ld]; [easy|]. cbn [map]. set (bs := batch_sample label post out noise n (g ++ [Cut (label 2) 0])) in *.
    destruct (forallb (fun q => length (hd [] q) =? length (hd [] (bs x0))) (map bs ld)) eqn:E; [|reflexivity].
    exfalso. apply N. rewrite forallb_forall in E.
    assert (A : forall zs, In zs (x0 :: ld) -> length zs = length x0).
    { intros zs [<-|K]; auto. specialize (E (bs zs) (in_map bs _ _ K)). apply Nat.eqb_eq in E. now rewrite !HB in E. }
    now rewrite (A xs I), (A ys J).
Qed.
Theorem sample_aux_unknown : forall label P X Y T (post : key -> P) (out : P -> X -> Y) (noise : key -> nat -> nat -> nat -> nat -> Y -> T) n aux g loader s,
  In s aux -> s <> "outputs"%string -> loader <> [] -> fst (sample label post out noise n aux None g loader) = Err TypeError.
Proof.
  intros label P X Y T post out noise n aux g loader s I N NE. unfold sample. rewrite rng_get_eq. destruct aux as [|a0 aux0]; [destruct I|].
  assert (C : check_aux (a0 :: aux0) = Err TypeError).
  { unfold check_aux. destruct (forallb (String.eqb "outputs") (a0 :: aux0)) eqn:E; auto. rewrite forallb_forall in E. specialize (E s I).
    apply String.eqb_eq in E. now symmetry in E. }
  rewrite C. destruct loader as [|xs loader]; [easy|]. reflexivity.
Qed.

(** ---- outputs over devices ---- *)
Theorem outputs_loader_rows : forall label P X Y (post : key -> P) (out : P -> X -> Y) d n rng g loader,
  outputs_loader label post out false d n rng g loader
  = (Ok (map (fun xs => map (fun i => map (out (draw label post (key_of label rng g) n i)) xs) (seq 0 n)) loader), generator_after label rng g).
Proof.
  intros. unfold outputs_loader. rewrite the_rng_eq. f_equal. induction loader as [|xs l IH]; auto.
  cbn [mapM map]. rewrite IH. cbn [bind]. unfold split. rewrite map_map. reflexivity.
Qed.
Theorem outputs_loader_devices : forall label P X Y (post : key -> P) (out : P -> X -> Y) d n rng g xs j u x,
  1 <= d -> length xs mod d = 0 -> j < d -> u < length xs / d -> nth_error xs (j * (length xs / d) + u) = Some x ->
  exists outs, outputs_loader label post out true d n rng g [xs] = (Ok [outs], generator_after label rng g)
    /\ length outs = n
    /\ forall i, i < n -> length (nth i outs []) = length xs
       /\ nth_error (nth i outs []) (j * (length xs / d) + u) = Some (out (post (key_of label rng g ++ [Cut (label n) i; Cut (label d) j])) x).
Proof.
  intros label P X Y post out d n rng g xs j u x Hd M Lj Lu N.
  unfold outputs_loader. rewrite the_rng_eq. cbn [mapM]. destruct (reshape_devices_ok d xs Hd M) as (sh & E & C & LS & F).
  rewrite E. cbn [rmap bind]. eexists. split; [reflexivity|]. change (split label (key_of label rng g) n) with (map (child label (key_of label rng g) n) (seq 0 n)). rewrite !map_map, map_length, seq_length. split; [reflexivity|].
  intros i Li. set (K := key_of label rng g) in *.
  set (h := fun i0 => concat (map (fun js => map (out (post (nth_key (split label (child label K n i0) d) (fst js)))) (snd js)) (combine (seq 0 d) sh))).
  replace (nth i (map _ (seq 0 n)) []) with (h i).
  2:{ symmetry. apply nth_error_nth. rewrite nth_error_map, (nth_error_nth' (seq 0 n) 0) by (rewrite seq_length; auto). now rewrite seq_nth. }
  assert (G : forall s (ss : list (list X)), s + length ss <= d -> Forall (fun q => length q = length xs / d) ss ->
    let w := concat (map (fun js => map (out (post (nth_key (split label (child label K n i) d) (fst js)))) (snd js)) (combine (seq s (length ss)) ss)) in
    length w = length (concat ss) /\
    forall a y, a < length ss -> nth_error (concat ss) (a * (length xs / d) + u) = Some y ->
      nth_error w (a * (length xs / d) + u) = Some (out (post (child label K n i ++ [Cut (label d) (s + a)])) y)).
  { intros s ss. revert s. induction ss as [|q ss IH]; intros s LL FF w.
    - split; [reflexivity|]. intros a y L. cbn in L. lia.
    - inversion FF as [|q0 ss0 Fq Fss]; subst q0 ss0. cbn [length] in LL. destruct (IH (S s) ltac:(lia) Fss) as [W1 W2].
      unfold w. cbn [length seq combine map concat fst snd]. rewrite !app_length, map_length. split; [now rewrite W1|].
      intros a y La Na. rewrite nth_split by lia. destruct a as [|a].
      + cbn [Nat.mul plus] in *. rewrite nth_error_app1 in Na by lia. rewrite nth_error_app1 by (rewrite map_length; lia).
        rewrite nth_error_map, Na. cbn [option_map]. now rewrite Nat.add_0_r.
      + rewrite nth_error_app2 in Na by (rewrite Fq; lia). rewrite nth_error_app2 by (rewrite map_length, Fq; lia). rewrite map_length, Fq in *.
        replace (S a * (length xs / d) + u - length xs / d) with (a * (length xs / d) + u) in * by lia.
        rewrite (W2 a y) by (auto; lia). now rewrite Nat.add_succ_r. }
  destruct (G 0 sh ltac:(lia) F) as [W1 W2]. rewrite LS in W1, W2. split; [unfold h; rewrite W1; now rewrite C|].
  unfold h. rewrite (W2 j x Lj). - unfold child. now rewrite <- app_assoc. - now rewrite C.
Qed.

(** ---- results depend on the draws of the call only ---- *)
Section Agree.
Variables (label : nat -> nat) (P X Y T : Type) (post post' : key -> P) (out : P -> X -> Y).
Lemma draw_agree k n i : (forall a, In a (drawn label k (Average n)) -> post a = post' a) -> i < n -> draw label post k n i = draw label post' k n i.
Proof. intros H L. unfold draw. apply H. cbn [drawn]. apply in_split. eauto. Qed.
End Agree.
Lemma map_ext_seq {A} (f f' : nat -> A) n : (forall i, i < n -> f i = f' i) -> map f (seq 0 n) = map f' (seq 0 n).
Proof. intros H. apply map_ext_in. intros i I. apply in_seq in I. apply H. lia. Qed.
Theorem average_draws : forall label P X Y (post post' : key -> P) (out : P -> X -> Y) mean_of var_of distribute d n rng g loader,
  1 <= n -> divisible distribute d loader ->
  (forall a, In a (drawn label (key_of label rng g) (Average n)) -> post a = post' a) ->
  mean label post out mean_of distribute d n rng g loader = mean label post' out mean_of distribute d n rng g loader
  /\ aleatoric_variance label post out var_of distribute d n rng g loader = aleatoric_variance label post' out var_of distribute d n rng g loader
  /\ epistemic_variance label post out mean_of distribute d n rng g loader = epistemic_variance label post' out mean_of distribute d n rng g loader
  /\ calibrated_outputs label post out distribute d n rng g loader = calibrated_outputs label post' out distribute d n rng g loader.
Proof.
  intros label P X Y post post' out mean_of var_of distribute d n rng g loader H D A. repeat split.
  - rewrite !mean_value by auto. do 2 f_equal. apply map_ext. intros x. apply batched_mean_ext; auto. intros i L. now rewrite (draw_agree label P post post' _ n i A L).
  - rewrite !aleatoric_value by auto. do 2 f_equal. apply map_ext. intros x. apply batched_aleatoric_ext; auto. intros i L. now rewrite (draw_agree label P post post' _ n i A L).
  - rewrite !epistemic_value by auto. do 2 f_equal. apply map_ext. intros x. apply batched_epistemic_ext; auto. intros i L. now rewrite (draw_agree label P post post' _ n i A L).
  - rewrite !outputs_value by auto. do 2 f_equal. apply map_ext_seq. intros i L. now rewrite (draw_agree label P post post' _ n i A L).
Qed.
Theorem variances_draws : forall label P X Y (post post' : key -> P) (out : P -> X -> Y) mean_of var_of distribute d n rng g loader,
  1 <= n -> divisible distribute d loader ->
  (forall a, In a (drawn label (key_of label rng g) (Variances n)) -> post a = post' a) ->
  variance label post out mean_of var_of distribute d n None None rng g loader = variance label post' out mean_of var_of distribute d n None None rng g loader.
Proof.
  intros label P X Y post post' out mean_of var_of distribute d n rng g loader H D A. unfold variance. rewrite the_rng_eq.
  cbn [drawn] in A. rewrite (proj1 (proj2 (average_draws label P X Y post post' out mean_of var_of distribute d n (Some (nth_key (split label (key_of label rng g) 2) 1)) _ loader H D ltac:(intros a I; apply A, in_or_app; now left)))).
  rewrite (proj1 (proj2 (proj2 (average_draws label P X Y post post' out mean_of var_of distribute d n (Some (nth_key (split label (nth_key (split label (key_of label rng g) 2) 0) 2) 1)) _ loader H D ltac:(intros a I; apply A, in_or_app; now right))))).
  reflexivity.
Qed.
Theorem samples_draws : forall label P X Y T (post post' : key -> P) (out : P -> X -> Y) (noise noise' : key -> nat -> nat -> nat -> nat -> Y -> T) n g loader,
  loader <> [] ->
  (forall a, In a (drawn label (key_of label None g) (Samples n)) -> post a = post' a /\ forall m b t j y, noise a m b t j y = noise' a m b t j y) ->
  sample label post out noise n [] None g loader = sample label post' out noise' n [] None g loader.
Proof.
  intros label P X Y T post post' out noise noise' n g loader NE A. rewrite !sample_eq by auto. do 3 f_equal.
  apply map_ext_seq. intros i L. f_equal. apply map_ext. intros xs. cbn [drawn key_of] in A.
  assert (B : forall u, u < 2 -> In ((g ++ [Cut (label 2) 0; Cut (label n) i]) ++ [Cut (label 2) u]) (flat_map (fun k => split label k 2) (split label (g ++ [Cut (label 2) 0]) n))).
  { intros u Lu. apply in_flat_map. exists ((g ++ [Cut (label 2) 0]) ++ [Cut (label n) i]). split; apply in_split.
    - eauto. - exists u. split; auto. now rewrite <- !app_assoc. }
  unfold sampled. rewrite (proj1 (A _ (B 0 ltac:(lia)))). apply map_ext. intros jy. apply (proj2 (A _ (B 1 ltac:(lia)))).
Qed.
Theorem entropies_draws : forall label P X Y T (post post' : key -> P) (out : P -> X -> Y) (noise noise' : key -> nat -> nat -> nat -> nat -> Y -> T) (log_prob : Y -> T -> R) dy dt est distribute d n m rng g loader,
  divisible distribute d loader ->
  (forall a, In a (drawn label (key_of label rng g) (Entropies n)) -> post a = post' a /\ forall m b t j y, noise a m b t j y = noise' a m b t j y) ->
  entropy_call label post out noise est log_prob dy dt distribute d n m rng g loader = entropy_call label post' out noise' est log_prob dy dt distribute d n m rng g loader.
Proof.
  intros label P X Y T post post' out noise noise' log_prob dy dt est distribute d n m rng g loader D A.
  cbn [drawn] in A. unfold entropy_call, reg_draws. rewrite the_rng_eq. set (K := key_of label rng g) in *.
  rewrite !outputs_value by auto. cbn [fst key_of].
  replace (map (fun i => map (out (draw label post (hd [] (split label K (1 + n))) n i)) (concat loader)) (seq 0 n))
     with (map (fun i => map (out (draw label post' (hd [] (split label K (1 + n))) n i)) (concat loader)) (seq 0 n)).
  2:{ apply map_ext_seq. intros i L. symmetry. rewrite (draw_agree label P post post' _ n i); auto. intros a I. apply A. apply in_or_app. now left. }
  set (outs := map _ (seq 0 n)). cbn [rmap].
  replace (map (fun ok => layer_sample noise m (fst ok) (snd ok)) (combine outs (tl (split label K (1 + n)))))
     with (map (fun ok => layer_sample noise' m (fst ok) (snd ok)) (combine outs (tl (split label K (1 + n))))); [reflexivity|].
  apply map_ext_in. intros [o k] I. apply in_combine_r in I. cbn [fst snd]. unfold layer_sample. apply map_ext. intros t. apply map_ext. intros jy.
  symmetry. apply A. apply in_or_app. now right.
Qed.

(** ---- regression ---- *)
Theorem regression_rows : forall label P X Y T Z (post : key -> P) (out : P -> X -> Y) (place : Y -> Z -> T) normal n g loader rows t l1 xs l2 j x,
  fst (sample label post out (reg_noise place normal) n [] None g loader) = Ok (rows, []) ->
  t < n -> loader = l1 ++ xs :: l2 -> nth_error xs j = Some x ->
  nth_error (nth t rows []) (length (concat l1) + j)
  = Some (place (out (post (g ++ [Cut (label 2) 0; Cut (label n) t; Cut (label 2) 0])) x)
            (normal (g ++ [Cut (label 2) 0; Cut (label n) t; Cut (label 2) 1]) 1 (length xs) 0 j)).
Proof.
  intros label P X Y T Z post out place normal n g loader rows t l1 xs l2 j x E L EL N.
  destruct (sample_rows label P X Y T post out (reg_noise place normal) n g loader) as (rows' & E' & _ & V); [subst; now destruct l1|].
  rewrite E' in E. cbn [fst] in E. inversion E; subst rows'. now apply (proj2 (V t L) l1 xs l2 j x).
Qed.
Lemma raverage_ext n f f' : (forall i, i < n -> f i = f' i) -> raverage n f = raverage n f'.
Proof. intros H. unfold raverage, rover. f_equal. f_equal. apply map_ext_in. intros i I. apply in_seq in I. apply H. lia. Qed.

Theorem entropy_rows : forall label P X Y T (post : key -> P) (out : P -> X -> Y) (noise : key -> nat -> nat -> nat -> nat -> Y -> T) (log_prob : Y -> T -> R) dy dt distribute d n m rng g loader,
  1 <= n -> 1 <= m -> divisible distribute d loader ->
  let k := key_of label rng g in
  let member i x := out (draw label post (k ++ [Cut (label (1 + n)) 0]) n i) x in
  let target r x j t := noise (k ++ [Cut (label (1 + n)) (1 + j)]) m (length (concat loader)) t r (member j x) in
  exists h a,
    entropy_call label post out noise reg_entropy log_prob dy dt distribute d n m rng g loader = (Ok h, generator_after label rng g)
    /\ entropy_call label post out noise reg_aleatoric log_prob dy dt distribute d n m rng g loader = (Ok a, generator_after label rng g)
    /\ length h = length (concat loader) /\ length a = length (concat loader)
    /\ forall r x, nth_error (concat loader) r = Some x ->
       nth r h 0%R = (- raverage n (fun j => raverage m (fun t => ln (raverage n (fun i => exp (log_prob (member i x) (target r x j t)))))))%R
       /\ nth r a 0%R = (- raverage n (fun j => raverage m (fun t => log_prob (member j x) (target r x j t))))%R.
Proof.
  intros label P X Y T post out noise log_prob dy dt distribute d n m rng g loader Hn Hm D k member target.
  unfold entropy_call, reg_draws. rewrite the_rng_eq. fold k. rewrite outputs_value by auto. cbn [fst key_of rmap snd]. rewrite hd_split.
  set (outs := map (fun i => map (out (draw label post (k ++ [Cut (label (1 + n)) 0]) n i)) (concat loader)) (seq 0 n)).
  set (ts := map (fun ok => layer_sample noise m (fst ok) (snd ok)) (combine outs (tl (split label k (1 + n))))).
  assert (HL : length (hd [] outs) = length (concat loader)).
  { unfold outs. destruct n as [|n']; [lia|]. cbn [seq map hd]. apply map_length. }
  do 2 eexists. split; [reflexivity|]. split; [reflexivity|]. rewrite !map_length, !seq_length. split; [exact HL|]. split; [exact HL|].
  intros r x N. assert (Lr : r < length (concat loader)) by (apply nth_error_Some; congruence).
  assert (M : forall (h : nat -> R), nth r (map h (seq 0 (length (hd [] outs)))) 0%R = h r).
  { intros h. rewrite HL. apply nth_error_nth. rewrite nth_error_map, (nth_error_nth' (seq 0 (length (concat loader))) 0) by (rewrite seq_length; auto). now rewrite seq_nth. }
  rewrite !M.
  assert (No : forall i, i < n -> nth_error outs i = Some (map (member i) (concat loader))).
  { intros i L. unfold outs. rewrite nth_error_map, (nth_error_nth' (seq 0 n) 0) by (rewrite seq_length; auto). now rewrite seq_nth. }
  assert (Nt : forall j, j < n -> nth_error ts j = Some (layer_sample noise m (map (member j) (concat loader)) (k ++ [Cut (label (1 + n)) (1 + j)]))).
  { intros j L. unfold ts. rewrite nth_error_map.
    assert (C : forall A B (la : list A) (lb : list B) i a b, nth_error la i = Some a -> nth_error lb i = Some b -> nth_error (combine la lb) i = Some (a, b)).
    { clear. induction la as [|a la IH]; intros [|b lb] [|i] a' b' E1 E2; cbn in *; try discriminate; [congruence|]. now apply IH. }
    rewrite (C _ _ outs _ j _ (k ++ [Cut (label (1 + n)) (1 + j)]) (No j L)); [reflexivity|].
    unfold split. cbn [plus seq map tl]. rewrite nth_error_map, (nth_error_nth' (seq 1 n) 0) by (rewrite seq_length; auto). now rewrite seq_nth. }
  assert (LL : forall i j t, i < n -> j < n -> t < m -> row_logps log_prob outs ts dy dt r i j t = log_prob (member i x) (target r x j t)).
  { intros i j t Li Lj Lt. unfold row_logps. f_equal.
    - rewrite (nth_error_nth _ _ [] (No i Li)). apply nth_error_nth. now rewrite nth_error_map, N.
    - rewrite (nth_error_nth _ _ [] (Nt j Lj)). unfold layer_sample. rewrite map_length.
      rewrite (nth_error_nth _ t [] (x := map (fun jy => noise (k ++ [Cut (label (1 + n)) (1 + j)]) m (length (concat loader)) t (fst jy) (snd jy)) (combine (seq 0 (length (concat loader))) (map (member j) (concat loader))))).
      + apply nth_error_nth. rewrite nth_error_map.
        pose proof (nth_numbered (map (member j) (concat loader)) 0 r) as NN. rewrite map_length, nth_error_map, N in NN. cbn [option_map plus] in NN.
        rewrite NN. reflexivity.
      + rewrite nth_error_map, (nth_error_nth' (seq 0 m) 0) by (rewrite seq_length; auto). now rewrite seq_nth. }
  destruct (reg_entropy_meaning n m (row_logps log_prob outs ts dy dt r) Hn Hm) as (E1 & E2 & _). rewrite E1, E2. split; f_equal; apply raverage_ext; intros j Lj; apply raverage_ext; intros t Lt.
  - f_equal. apply raverage_ext. intros i Li. now rewrite LL.
  - now apply LL.
Qed.
