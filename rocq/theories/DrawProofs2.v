(** Proofs for DrawProps: values of the predictive quantities in terms of the draws of a call. *)
From Coq Require Import List Arith Bool Lia QArith Reals String Lra.
From Verif Require Import Lib ConfRegModel LoaderModel LoaderProofs LoaderProofs2 PredModel PredSpec PredProofs PredProofs2 PredProofs3 PredProofs4 PredProofs5
  DrawModel DrawSpec DrawProofs.
Import ListNotations.
Local Notation length := List.length.
Local Notation concat := List.concat.
Local Open Scope nat_scope.

Lemma the_rng_eq label rng g : the_rng label rng g = (key_of label rng g, generator_after label rng g).
Proof. now destruct rng. Qed.
Lemma fori_ext {S} (f f' : nat -> S -> S) : forall k lo s, (forall i s, lo <= i < lo + k -> f i s = f' i s) -> fori k lo f s = fori k lo f' s.
Proof.
  induction k as [|k IH]; intros lo s H; cbn [fori]; auto. rewrite (H lo) by lia. apply IH. intros i s' L. apply H. lia.
Qed.
Lemma batched_mean_ext n f f' : 1 <= n -> (forall i, i < n -> f i = f' i) -> batched_mean n f = batched_mean n f'.
Proof.
  intros H E. unfold batched_mean. f_equal. unfold fori_loop. rewrite (E 0) by lia. apply fori_ext. intros i s L. now rewrite E by lia.
Qed.
Lemma batched_aleatoric_ext n f f' : 1 <= n -> (forall i, i < n -> f i = f' i) -> batched_aleatoric_variance n f = batched_aleatoric_variance n f'.
Proof. exact (batched_mean_ext n f f'). Qed.
Lemma batched_epistemic_ext n f f' : 1 <= n -> (forall i, i < n -> f i = f' i) -> batched_epistemic_variance n f = batched_epistemic_variance n f'.
Proof.
  intros H E. unfold batched_epistemic_variance.
  assert (S : forall s, fori_loop 1 n (fun i (s : Q * Q) => (fst s + f i, snd s + f i * f i)%Q) s = fori_loop 1 n (fun i (s : Q * Q) => (fst s + f' i, snd s + f' i * f' i)%Q) s).
  { intros s. unfold fori_loop. apply fori_ext. intros i s' L. now rewrite E by lia. }
  rewrite S. now rewrite (E 0) by lia.
Qed.

Section Values.
Variables (label : nat -> nat) (P X Y : Type) (post : key -> P) (out : P -> X -> Y) (f : Y -> Q).
Lemma batch_mean_map n k xs : 1 <= n -> batch_mean label post out f n k xs = map (fun x => batched_mean n (fun i => f (out (draw label post k n i) x))) xs.
Proof. intros H. apply map_ext. intros x. apply batched_mean_ext; auto. intros i L. now rewrite nth_split. Qed.
Lemma batch_aleatoric_map n k xs : 1 <= n -> batch_aleatoric label post out f n k xs = map (fun x => batched_aleatoric_variance n (fun i => f (out (draw label post k n i) x))) xs.
Proof. exact (batch_mean_map n k xs). Qed.
Lemma batch_epistemic_map n k xs : 1 <= n -> batch_epistemic label post out f n k xs = map (fun x => batched_epistemic_variance n (fun i => f (out (draw label post k n i) x))) xs.
Proof. intros H. apply map_ext. intros x. apply batched_epistemic_ext; auto. intros i L. now rewrite nth_split. Qed.
Lemma batch_outputs_map n k xs : batch_outputs label post out n k xs = map (fun g => map g xs) (map (fun i => out (draw label post k n i)) (seq 0 n)).
Proof. unfold batch_outputs, split. now rewrite !map_map. Qed.

Lemma loop_fun_ext {A B} (f1 f2 : list A -> list B) distribute d loader : (forall b, f1 b = f2 b) -> loop_fun distribute d f1 loader = loop_fun distribute d f2 loader.
Proof.
  intros E. unfold loop_fun. destruct distribute.
  - f_equal. clear - E. induction loader as [|b r IH]; cbn; auto. rewrite IH.
    replace (rmap (fun shards => unshard (map f1 shards)) (reshape_devices d b)) with (rmap (fun shards => unshard (map f2 shards)) (reshape_devices d b)); auto.
    destruct (reshape_devices d b); cbn; auto. do 2 f_equal. apply map_ext. auto.
  - f_equal. now apply map_ext.
Qed.
Lemma loop_ensemble_ext {A B} (f1 f2 : list A -> list (list B)) distribute d s loader : (forall b, f1 b = f2 b) -> loop_ensemble distribute d s f1 loader = loop_ensemble distribute d s f2 loader.
Proof.
  intros E. unfold loop_ensemble. destruct distribute.
  - f_equal. clear - E. induction loader as [|b r IH]; cbn; auto. rewrite IH.
    replace (rmap (fun shards => unshard_ensemble s (length b / d) (map f1 shards)) (reshape_devices d b)) with (rmap (fun shards => unshard_ensemble s (length b / d) (map f2 shards)) (reshape_devices d b)); auto.
    destruct (reshape_devices d b); cbn; auto. do 2 f_equal. apply map_ext. auto.
  - f_equal. now apply map_ext.
Qed.

Lemma mean_value distribute d n rng g loader : 1 <= n -> divisible distribute d loader ->
  mean label post out f distribute d n rng g loader
  = (Ok (map (fun x => batched_mean n (fun i => f (out (draw label post (key_of label rng g) n i) x))) (concat loader)), generator_after label rng g).
Proof.
  intros H (D & NE & F). unfold mean. rewrite the_rng_eq. f_equal.
  rewrite (loop_fun_ext _ _ distribute d loader (fun b => batch_mean_map n (key_of label rng g) b H)). now apply loop_fun_rowwise.
Qed.
Lemma aleatoric_value distribute d n rng g loader : 1 <= n -> divisible distribute d loader ->
  aleatoric_variance label post out f distribute d n rng g loader
  = (Ok (map (fun x => batched_aleatoric_variance n (fun i => f (out (draw label post (key_of label rng g) n i) x))) (concat loader)), generator_after label rng g).
Proof. exact (mean_value distribute d n rng g loader). Qed.
Lemma epistemic_value distribute d n rng g loader : 1 <= n -> divisible distribute d loader ->
  epistemic_variance label post out f distribute d n rng g loader
  = (Ok (map (fun x => batched_epistemic_variance n (fun i => f (out (draw label post (key_of label rng g) n i) x))) (concat loader)), generator_after label rng g).
Proof.
  intros H (D & NE & F). unfold epistemic_variance. rewrite the_rng_eq. f_equal.
  rewrite (loop_fun_ext _ _ distribute d loader (fun b => batch_epistemic_map n (key_of label rng g) b H)). now apply loop_fun_rowwise.
Qed.
Lemma outputs_value distribute d n rng g loader : divisible distribute d loader ->
  calibrated_outputs label post out distribute d n rng g loader
  = (Ok (map (fun i => map (out (draw label post (key_of label rng g) n i)) (concat loader)) (seq 0 n)), generator_after label rng g).
Proof.
  intros (D & NE & F). unfold calibrated_outputs. rewrite the_rng_eq. f_equal.
  rewrite (loop_ensemble_ext _ _ distribute d n loader (fun b => batch_outputs_map n (key_of label rng g) b)).
  set (gs := map (fun i => out (draw label post (key_of label rng g) n i)) (seq 0 n)).
  replace n with (length gs) at 1 by (unfold gs; now rewrite map_length, seq_length).
  rewrite loop_ensemble_rowwise by auto. unfold gs. now rewrite map_map.
Qed.
End Values.

Lemma Forall2_map_l {A B} (R : B -> A -> Prop) (h : A -> B) l : (forall x, In x l -> R (h x) x) -> Forall2 R (map h l) l.
Proof. induction l as [|x l IH]; cbn; intros H; constructor; auto. Qed.

Theorem mean_rows : forall label P X Y (post : key -> P) (out : P -> X -> Y) mean_of var_of distribute d n rng g loader,
  1 <= n -> divisible distribute d loader ->
  (exists rows, mean label post out mean_of distribute d n rng g loader = (Ok rows, generator_after label rng g)
     /\ Forall2 (fun q x => q == row_mean label post out mean_of n (key_of label rng g) x)%Q rows (concat loader))
  /\ (exists rows, aleatoric_variance label post out var_of distribute d n rng g loader = (Ok rows, generator_after label rng g)
     /\ Forall2 (fun q x => q == row_mean label post out var_of n (key_of label rng g) x)%Q rows (concat loader))
  /\ (exists rows, epistemic_variance label post out mean_of distribute d n rng g loader = (Ok rows, generator_after label rng g)
     /\ Forall2 (fun q x => q == row_spread label post out mean_of n (key_of label rng g) x)%Q rows (concat loader)).
Proof.
  intros label P X Y post out mean_of var_of distribute d n rng g loader H D. split; [|split].
  - rewrite mean_value by auto. eexists. split; [reflexivity|]. apply Forall2_map_l. intros x _. now apply mean_average.
  - rewrite aleatoric_value by auto. eexists. split; [reflexivity|]. apply Forall2_map_l. intros x _. now apply mean_average.
  - rewrite epistemic_value by auto. eexists. split; [reflexivity|]. apply Forall2_map_l. intros x _. now apply epistemic_spread.
Qed.
Theorem outputs_rows : forall label P X Y (post : key -> P) (out : P -> X -> Y) distribute d n rng g loader,
  divisible distribute d loader ->
  calibrated_outputs label post out distribute d n rng g loader
  = (Ok (map (fun i => map (out (draw label post (key_of label rng g) n i)) (concat loader)) (seq 0 n)), generator_after label rng g).
Proof. intros. now apply outputs_value. Qed.

Lemma zip_with_map {A B C D} (h : B -> C -> D) (u : A -> B) (v : A -> C) l : zip_with h (map u l) (map v l) = map (fun x => h (u x) (v x)) l.
Proof. unfold zip_with. induction l as [|x l IH]; cbn; auto. now rewrite IH. Qed.
Lemma zip_with_cons {A B C} (h : A -> B -> C) a l b m : zip_with h (a :: l) (b :: m) = h a b :: zip_with h l m.
Proof. reflexivity. Qed.

Theorem variance_rows : forall label P X Y (post : key -> P) (out : P -> X -> Y) mean_of var_of distribute d n rng g loader,
  1 <= n -> divisible distribute d loader ->
  exists rows, variance label post out mean_of var_of distribute d n None None rng g loader = (Ok rows, generator_after label rng g)
    /\ Forall2 (fun q x => Qeq q (Qplus (row_mean label post out var_of n (key_of label rng g ++ [Cut (label 2) 1]) x)
                                 (row_spread label post out mean_of n (key_of label rng g ++ [Cut (label 2) 0; Cut (label 2) 1]) x))) rows (concat loader).
Proof.
  intros label P X Y post out mean_of var_of distribute d n rng g loader H D. unfold variance. rewrite the_rng_eq.
  rewrite aleatoric_value, epistemic_value by auto. cbn [fst bind]. rewrite zip_with_map. eexists. split; [reflexivity|].
  apply Forall2_map_l. intros x _. cbn [key_of]. rewrite !nth_split by lia. rewrite <- app_assoc. cbn [app].
  rewrite (proj2 (mean_average n _ H)), epistemic_spread by auto. reflexivity.
Qed.
Theorem variance_given : forall label P X Y (post : key -> P) (out : P -> X -> Y) mean_of var_of distribute d n rng g loader,
  (forall a e, variance label post out mean_of var_of distribute d n (Some a) (Some e) rng g loader = (Ok (zip_with Qplus a e), generator_after label rng g))
  /\ (1 <= n -> divisible distribute d loader -> forall a,
      exists e, fst (epistemic_variance label post out mean_of distribute d n (Some (key_of label rng g ++ [Cut (label 2) 1])) g loader) = Ok e
        /\ variance label post out mean_of var_of distribute d n (Some a) None rng g loader = (Ok (zip_with Qplus a e), generator_after label rng g))
  /\ (1 <= n -> divisible distribute d loader -> forall e,
      exists a, fst (aleatoric_variance label post out var_of distribute d n (Some (key_of label rng g ++ [Cut (label 2) 1])) g loader) = Ok a
        /\ variance label post out mean_of var_of distribute d n None (Some e) rng g loader = (Ok (zip_with Qplus a e), generator_after label rng g)).
Proof.
  intros label P X Y post out mean_of var_of distribute d n rng g loader. split; [|split].
  - intros a e. unfold variance. rewrite the_rng_eq. reflexivity.
  - intros H D a. unfold variance. rewrite the_rng_eq. rewrite !epistemic_value by auto. cbn [fst key_of bind].
    rewrite nth_split by lia. eexists. split; reflexivity.
  - intros H D a. unfold variance. rewrite the_rng_eq. rewrite !aleatoric_value by auto. cbn [fst key_of bind].
    rewrite nth_split by lia. eexists. split; reflexivity.
Qed.

(** batches and devices do not matter *)
Theorem batching : forall label P X Y (post : key -> P) (out : P -> X -> Y) mean_of var_of distribute d distribute' d' n rng g l1 l2,
  1 <= n -> divisible distribute d l1 -> divisible distribute' d' l2 -> concat l1 = concat l2 ->
  mean label post out mean_of distribute d n rng g l1 = mean label post out mean_of distribute' d' n rng g l2
  /\ aleatoric_variance label post out var_of distribute d n rng g l1 = aleatoric_variance label post out var_of distribute' d' n rng g l2
  /\ epistemic_variance label post out mean_of distribute d n rng g l1 = epistemic_variance label post out mean_of distribute' d' n rng g l2
  /\ variance label post out mean_of var_of distribute d n None None rng g l1 = variance label post out mean_of var_of distribute' d' n None None rng g l2
  /\ calibrated_outputs label post out distribute d n rng g l1 = calibrated_outputs label post out distribute' d' n rng g l2.
Proof.
  intros label P X Y post out mean_of var_of distribute d distribute' d' n rng g l1 l2 H D1 D2 E.
  repeat split.
  - rewrite !mean_value by auto. now rewrite E.
  - rewrite !aleatoric_value by auto. now rewrite E.
  - rewrite !epistemic_value by auto. now rewrite E.
  - unfold variance. rewrite the_rng_eq. rewrite !aleatoric_value, !epistemic_value by auto. now rewrite E.
  - rewrite !outputs_value by auto. now rewrite E.
Qed.

(** the mean averages the outputs that the same key gives *)
Theorem mean_of_outputs : forall label P X Y (post : key -> P) (out : P -> X -> Y) mean_of distribute d n k g g' loader outs ms dy r,
  1 <= n -> divisible distribute d loader ->
  fst (calibrated_outputs label post out distribute d n (Some k) g loader) = Ok outs ->
  fst (mean label post out mean_of distribute d n (Some k) g' loader) = Ok ms ->
  r < length (concat loader) ->
  (nth r ms 0%Q == average n (fun i => mean_of (nth r (nth i outs []) dy)))%Q.
Proof.
  intros label P X Y post out mean_of distribute d n k g g' loader outs ms dy r H D E1 E2 L.
  rewrite outputs_value in E1 by auto. rewrite mean_value in E2 by auto. cbn [fst key_of] in E1, E2. inversion E1; inversion E2; subst; clear E1 E2.
  destruct (nth_error (concat loader) r) as [x|] eqn:N; [|apply nth_error_None in N; lia].
  assert (M : forall (h : X -> Q) dq, nth r (map h (concat loader)) dq = h x).
  { intros h dq. apply nth_error_nth. rewrite nth_error_map, N. reflexivity. }
  rewrite M. rewrite (batched_mean_ext n _ (fun i => mean_of (nth r (nth i (map (fun i => map (out (draw label post k n i)) (concat loader)) (seq 0 n)) []) dy)) H).
  - now apply mean_average.
  - intros i Li. f_equal.
    replace (nth i (map (fun i => map (out (draw label post k n i)) (concat loader)) (seq 0 n)) []) with (map (out (draw label post k n i)) (concat loader)).
    + symmetry. apply nth_error_nth. rewrite nth_error_map, N. reflexivity.
    + symmetry. apply nth_error_nth. rewrite nth_error_map. rewrite (nth_error_nth' (seq 0 n) 0) by (rewrite seq_length; auto). rewrite seq_nth by auto. reflexivity.
Qed.

(** entropies of regression with one key *)
Theorem entropies_one_key : forall label P X Y T (post : key -> P) (out : P -> X -> Y) noise (log_prob : Y -> T -> R) dy dt distribute d n m k g1 g2 g3 loader h a e,
  1 <= n -> 1 <= m ->
  fst (entropy_call label post out noise reg_entropy log_prob dy dt distribute d n m (Some k) g1 loader) = Ok h ->
  fst (entropy_call label post out noise reg_aleatoric log_prob dy dt distribute d n m (Some k) g2 loader) = Ok a ->
  fst (entropy_call label post out noise reg_epistemic log_prob dy dt distribute d n m (Some k) g3 loader) = Ok e ->
  length h = length a /\ length h = length e /\ forall r, nth r h 0%R = (nth r a 0 + nth r e 0)%R.
Proof.
  intros label P X Y T post out noise log_prob dy dt distribute d n m k g1 g2 g3 loader h a e Hn Hm E1 E2 E3.
  unfold entropy_call, reg_draws, calibrated_outputs in *. cbn [the_rng fst] in *.
  destruct (loop_ensemble distribute d n _ loader) as [outs|]; cbn [rmap] in *; try discriminate.
  inversion E1; inversion E2; inversion E3; subst; clear E1 E2 E3. rewrite !map_length. split; [reflexivity|]. split; [reflexivity|].
  intros r. set (L := length (hd [] _)). set (ll := row_logps _ _ _ _ _).
  assert (N : forall (h : nat -> R), nth r (map h (seq 0 L)) 0%R = if r <? L then h r else 0%R).
  { intros h. destruct (Nat.ltb_spec r L) as [H|H].
    - apply nth_error_nth. rewrite nth_error_map, (nth_error_nth' (seq 0 L) 0) by (rewrite seq_length; auto). now rewrite seq_nth.
    - apply nth_overflow. now rewrite map_length, seq_length. }
  rewrite !N. destruct (r <? L); [|lra]. destruct (reg_entropy_meaning n m (ll r) Hn Hm) as (_ & _ & S & _). exact S.
Qed.
Theorem entropies_batching : forall label P X Y T (post : key -> P) (out : P -> X -> Y) noise (log_prob : Y -> T -> R) dy dt est distribute d distribute' d' n m rng g l1 l2,
  divisible distribute d l1 -> divisible distribute' d' l2 -> concat l1 = concat l2 ->
  entropy_call label post out noise est log_prob dy dt distribute d n m rng g l1 = entropy_call label post out noise est log_prob dy dt distribute' d' n m rng g l2.
Proof.
  intros label P X Y T post out noise log_prob dy dt est distribute d distribute' d' n m rng g l1 l2 D1 D2 E.
  unfold entropy_call, reg_draws. rewrite the_rng_eq. rewrite !outputs_value by auto. now rewrite E.
Qed.
