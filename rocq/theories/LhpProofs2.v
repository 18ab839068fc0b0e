(** Samples and sampled entropies at fixed parameters. *)
From Coq Require Import List Arith ZArith QArith Bool Reals Lia Lra String.
From Verif Require Import Lib ConfRegModel QuantModel LoaderModel LoaderProofs LoaderProofs2 TempModel TempSpec TempProofs3 MetricSpec PredModel PredSpec PredProofs4
  PredProofs5 DrawModel DrawSpec DrawProofs DrawProofs2 LhpModel LhpSpec LhpProofs.
Import ListNotations.
Local Notation length := List.length.
Local Notation concat := List.concat.
Local Open Scope R_scope.
Local Open Scope nat_scope.

Lemma split_row_keys label k n : split label k n = row_keys label k n.
Proof. reflexivity. Qed.
Theorem row_keys_independent : forall label k n,
  independent (row_keys label k n) /\ Forall (derived k) (row_keys label k n) /\ length (row_keys label k n) = n.
Proof.
  intros label k n. split; [|split].
  - rewrite <- split_row_keys. apply split_independent.
  - apply Forall_map, Forall_forall. intros j _. now exists [Cut (label n) j].
  - unfold row_keys. now rewrite map_length, seq_length.
Qed.

Lemma combine_map_r {A B C} (f : B -> C) (l : list A) (m : list B) : combine l (map f m) = map (fun ab => (fst ab, f (snd ab))) (combine l m).
Proof. revert m. induction l as [|a l IH]; intros [|b m]; try reflexivity. cbn. now rewrite IH. Qed.

Theorem class_samples : forall label X T (choice : key -> list R -> nat -> nat -> T) (net : list X -> list (list R)) manager h m aux rng g distribute d loader,
  outputs_by net manager h -> divisible distribute d loader -> Forall (eq "outputs"%string) aux ->
  sample label (class_layer_sample label choice) net manager m aux rng g distribute d loader
  = (Ok (map (fun t => map (fun kx => choice (fst kx) (probabilities (h (snd kx))) m t)
                (combine (row_keys label (key_of label rng g) (length (concat loader))) (concat loader))) (seq 0 m),
         match aux with [] => None | _ => Some (map h (concat loader)) end), generator_after label rng g).
Proof.
  intros label X T choice net manager h m aux rng g distribute d loader O D A. unfold sample, check_aux.
  replace (forallb (String.eqb "outputs") aux) with true.
  2:{ symmetry. apply forallb_forall. intros s I. rewrite Forall_forall in A. rewrite <- (A s I). reflexivity. }
  cbn [bind]. rewrite (calibrated_outputs_rows X net manager h distribute d loader O D), the_rng_eq. unfold class_layer_sample. cbn [rmap].
  rewrite !map_length, map_map, split_row_keys. do 3 f_equal. apply map_ext. intros t. rewrite combine_map_r, map_map. reflexivity.
Qed.

Lemma half_draw m v z : reg_sample1 m v z = (m + sqrt (exp v) * z)%R.
Proof. apply reg_sample_spec. Qed.

Lemma halves_parts {X} (h ms lvs : X -> list R) rows : parts_by h ms lvs rows -> mapM halves (map h rows) = Ok (map (fun x => (ms x, lvs x)) rows).
Proof.
  intros P. induction rows as [|x r IH]; [reflexivity|]. cbn [map mapM].
  destruct (P x (or_introl eq_refl)) as (-> & E). rewrite halves_app by exact E. rewrite IH; [reflexivity|]. intros y I. apply P. now right.
Qed.

Lemma noisy_eq ms lvs z : length ms = length lvs ->
  map (fun cml : nat * (R * R) => let '(c, (mean, lv)) := cml in reg_sample1 mean lv (z c)) (combine (seq 0 (length ms)) (combine ms lvs)) = noisy ms lvs z.
Proof.
  unfold noisy. revert lvs z. induction ms as [|a ms IH]; intros [|v lvs] z E; try discriminate; [reflexivity|].
  cbn [length seq combine map nth]. f_equal; [apply half_draw|]. rewrite <- seq_shift, map_map. injection E as E.
  rewrite <- (IH lvs (fun c => z (S c)) E).
  generalize (combine ms lvs) as l. generalize (seq 0 (length ms)) as s. clear. induction s as [|c s IH]; intros [|[a b] l]; try reflexivity.
  cbn [map combine]. f_equal. apply IH.
Qed.

Lemma nth_combine_seq {A} (l : list A) : forall s i, nth_error (combine (seq s (length l)) l) i = option_map (fun x => (s + i, x)) (nth_error l i).
Proof.
  induction l as [|a l IH]; intros s i; simpl; [now destruct i|].
  destruct i as [|i]; simpl; [now rewrite Nat.add_0_r|]. rewrite IH. destruct (nth_error l i); simpl; [|reflexivity].
  do 2 f_equal. lia.
Qed.
Lemma numbered_map {A B} (f : A -> B) l : numbered (map f l) = map (fun ja => (fst ja, f (snd ja))) (numbered l).
Proof. unfold numbered. rewrite map_length. apply combine_map_r. Qed.
Lemma in_numbered {A} (l : list A) j x : In (j, x) (numbered l) <-> nth_error l j = Some x.
Proof.
  unfold numbered. split.
  - intros I. apply In_nth_error in I as (i & E). rewrite nth_combine_seq in E. cbn in E.
    destruct (nth_error l i) as [y|] eqn:F; [|discriminate]. cbn in E. injection E as <- <-. exact F.
  - intros E. apply nth_error_In with (n := j). rewrite nth_combine_seq, E. reflexivity.
Qed.

Lemma reg_layer_rows {X} (normal : key -> nat -> nat -> nat -> nat -> nat -> nat -> R) (h ms lvs : X -> list R) rows m k : parts_by h ms lvs rows ->
  reg_layer_sample normal m (map h rows) k
  = Ok (map (fun t => map (fun jx => noisy (ms (snd jx)) (lvs (snd jx)) (normal k m (length rows) (length (ms (snd jx))) t (fst jx))) (numbered rows)) (seq 0 m)).
Proof.
  intros P. unfold reg_layer_sample. rewrite (halves_parts h ms lvs rows P). cbn [rmap]. f_equal. apply map_ext. intros t.
  rewrite map_length, combine_map_r, map_map. apply map_ext_in. intros [j x] I. cbn [fst snd]. apply noisy_eq.
  apply in_combine_r in I. now destruct (P x I).
Qed.

Theorem reg_samples : forall label X normal (net : list X -> list (list R)) manager h ms lvs m aux rng g distribute d loader,
  outputs_by net manager h -> divisible distribute d loader -> parts_by h ms lvs (concat loader) -> Forall (eq "outputs"%string) aux ->
  sample label (reg_layer_sample normal) net manager m aux rng g distribute d loader
  = (Ok (map (fun t => map (fun jx => noisy (ms (snd jx)) (lvs (snd jx))
                  (normal (key_of label rng g) m (length (concat loader)) (length (ms (snd jx))) t (fst jx))) (numbered (concat loader))) (seq 0 m),
         match aux with [] => None | _ => Some (map h (concat loader)) end), generator_after label rng g).
Proof.
  intros label X normal net manager h ms lvs m aux rng g distribute d loader O D P A. unfold sample, check_aux.
  replace (forallb (String.eqb "outputs") aux) with true.
  2:{ symmetry. apply forallb_forall. intros s I. rewrite Forall_forall in A. rewrite <- (A s I). reflexivity. }
  cbn [bind]. rewrite (calibrated_outputs_rows X net manager h distribute d loader O D), the_rng_eq.
  rewrite (reg_layer_rows normal h ms lvs (concat loader) m _ P). reflexivity.
Qed.

Theorem sample_refused : forall label X S (layer : nat -> list (list R) -> key -> result S) (net : list X -> list (list R)) manager m aux rng g distribute d loader,
  (Exists (fun s => s <> "outputs"%string) aux -> sample label layer net manager m aux rng g distribute d loader = (Err TypeError, g)) /\
  (Forall (eq "outputs"%string) aux -> loader = [] \/ distribute = true /\ 1 <= d /\ Exists (fun b => length b mod d <> 0) loader ->
     sample label layer net manager m aux rng g distribute d loader = (Err ValueError, g)).
Proof.
  intros label X S layer net manager m aux rng g distribute d loader. unfold sample, check_aux. split.
  - intros E. replace (forallb (String.eqb "outputs") aux) with false; [reflexivity|]. symmetry. apply Exists_exists in E as (s & I & N).
    apply not_true_iff_false. intros F. rewrite forallb_forall in F. specialize (F s I). apply String.eqb_eq in F. congruence.
  - intros A H. replace (forallb (String.eqb "outputs") aux) with true.
    2:{ symmetry. apply forallb_forall. intros s I. rewrite Forall_forall in A. rewrite <- (A s I). reflexivity. }
    cbn [bind]. unfold get_calibrated_outputs, get_outputs. destruct H as [->|(-> & D & E)].
    + now rewrite loop_nil.
    + now rewrite loop_fun_indivisible.
Qed.

Theorem reg_sample_odd : forall label X normal (net : list X -> list (list R)) manager h m rng g distribute d loader,
  outputs_by net manager h -> divisible distribute d loader -> (exists x, In x (concat loader) /\ Nat.Odd (length (h x))) ->
  fst (sample label (reg_layer_sample normal) net manager m [] rng g distribute d loader) = Err ValueError.
Proof.
  intros label X normal net manager h m rng g distribute d loader O D (x & I & W). unfold sample, check_aux. cbn [forallb bind].
  rewrite (calibrated_outputs_rows X net manager h distribute d loader O D), the_rng_eq. unfold reg_layer_sample.
  assert (E : mapM halves (map h (concat loader)) = Err ValueError); [|now rewrite E].
  clear - I W. induction (concat loader) as [|y r IH]; [destruct I|]. cbn [map mapM]. destruct I as [->|I].
  - now rewrite halves_odd.
  - rewrite (IH I). unfold halves. destruct (Nat.even (length (h y))); reflexivity.
Qed.

(** successive calls *)
Theorem sample_keys_apart : forall label rng1 rng2 g n1 n2 a b,
  rng1 = None -> rng2 = None -> label n1 <> label 2 ->
  In a (row_keys label (key_of label rng1 g) n1) -> In b (row_keys label (key_of label rng2 (generator_after label rng1 g)) n2) -> apart a b.
Proof.
  intros label rng1 rng2 g n1 n2 a b -> -> L A B. cbn [key_of generator_after] in *.
  unfold row_keys in *. apply in_map_iff in A as (i & <- & _). apply in_map_iff in B as (j & <- & _).
  rewrite <- !app_assoc. cbn [app]. set (c := Cut (label 2) 0).
  split; intros (ms & E); rewrite <- !app_assoc in E; apply app_inv_head in E; cbn in E; inversion E; congruence.
Qed.

(** entropy of a normal *)
Lemma normal_entropy_exp v : normal_entropy (exp v) = (1 / 2 * (ln (2 * PI) + 1 + v))%R.
Proof.
  unfold normal_entropy. pose proof PI_RGT_0. pose proof (exp_pos 1). pose proof (exp_pos v).
  rewrite ln_mult, ln_mult, ln_exp, ln_exp by nra. ring.
Qed.
Lemma gauss_term_noise m v z : gauss_term (m + sqrt (exp v) * z) m v = (z * z + v + ln (2 * PI))%R.
Proof.
  unfold gauss_term. replace (m + sqrt (exp v) * z - m)%R with (sqrt (exp v) * z)%R by ring.
  replace (sqrt (exp v) * z * (sqrt (exp v) * z))%R with (sqrt (exp v) * sqrt (exp v) * (z * z))%R by ring.
  rewrite sqrt_sqrt by (left; apply exp_pos). rewrite exp_Ropp. pose proof (exp_pos v). field. lra.
Qed.

Lemma rover_S n f : rover (S n) f = (f O + rover n (fun i => f (S i)))%R.
Proof. unfold rover. cbn [seq map]. rewrite <- seq_shift, map_map. reflexivity. Qed.
Lemma rover_plus n f g : rover n (fun i => f i + g i)%R = (rover n f + rover n g)%R.
Proof. revert f g. induction n as [|n IH]; intros f g; [unfold rover; cbn; ring|]. rewrite !rover_S, IH. ring. Qed.
Lemma rover_scale n c f : rover n (fun i => c * f i)%R = (c * rover n f)%R.
Proof. revert f. induction n as [|n IH]; intros f; [unfold rover; cbn; ring|]. rewrite !rover_S, IH. ring. Qed.
Lemma rover_const n c : rover n (fun _ => c) = (INR n * c)%R.
Proof. induction n as [|n IH]; [unfold rover; cbn; ring|]. rewrite rover_S, IH, S_INR. ring. Qed.
Lemma rover_ext n f g : (forall i, i < n -> f i = g i) -> rover n f = rover n g.
Proof. intros E. unfold rover. f_equal. apply map_ext_in. intros i I. apply in_seq in I. apply E. lia. Qed.

Lemma noisy_log_prob ms lvs z : length ms = length lvs ->
  reg_log_prob (ms ++ lvs) (noisy ms lvs z)
  = Ok (- (rover (length ms) (fun c => normal_entropy (exp (nth c lvs 0%R))) + 1 / 2 * (rover (length ms) (fun c => z c * z c) - INR (length ms))))%R.
Proof.
  intros E. unfold reg_log_prob. rewrite halves_app by exact E. cbn [rmap fst snd]. f_equal.
  assert (S : rsum (map (fun tmv => gauss_term (fst tmv) (fst (snd tmv)) (snd (snd tmv))) (combine (noisy ms lvs z) (combine ms lvs)))
    = rover (length ms) (fun c => z c * z c + nth c lvs 0 + ln (2 * PI))%R).
  { clear - E. unfold noisy. revert lvs z E. induction ms as [|a ms IH]; intros [|v lvs] z E; try discriminate; [reflexivity|].
    cbn [length seq map combine nth]. rewrite rover_S. change (rsum (?x :: ?l)) with (x + rsum l)%R. cbn [fst snd nth].
    rewrite gauss_term_noise. f_equal. rewrite <- seq_shift, map_map. injection E as E. apply (IH lvs (fun c => z (S c)) E). }
  rewrite S. rewrite (rover_ext _ (fun c => normal_entropy (exp (nth c lvs 0%R))) (fun c => 1 / 2 * (ln (2 * PI) + 1) + 1 / 2 * nth c lvs 0)%R).
  2:{ intros i _. rewrite normal_entropy_exp. field. }
  rewrite !rover_plus, !rover_const, rover_scale. field.
Qed.

Lemma rmean_raverage n f : rmean (map f (seq 0 n)) = raverage n f.
Proof. unfold rmean, raverage, rover. rewrite map_length, seq_length. reflexivity. Qed.

Theorem reg_entropy_value : forall label X normal (net : list X -> list (list R)) manager h ms lvs m rng g distribute d loader,
  outputs_by net manager h -> divisible distribute d loader -> parts_by h ms lvs (concat loader) -> 1 <= m ->
  reg_entropy label normal net manager m rng g distribute d loader
  = (Ok (map (fun jx => let '(j, x) := jx in let w := length (ms x) in
        (rover w (fun c => normal_entropy (exp (nth c (lvs x) 0))) +
         1 / 2 * (raverage m (fun t => let z := normal (key_of label rng g) m (length (concat loader)) w t j in rover w (fun c => z c * z c)) - INR w))%R)
      (numbered (concat loader))), generator_after label rng g).
Proof.
  intros label X normal net manager h ms lvs m rng g distribute d loader O D P M. unfold reg_entropy.
  rewrite (reg_samples label X normal net manager h ms lvs m ["outputs"%string] rng g distribute d loader O D P) by (repeat constructor).
  cbn [bind snd fst]. f_equal. fold (numbered (map h (concat loader))). rewrite numbered_map.
  set (k := key_of label rng g). set (rows := concat loader) in *. set (N := length rows).
  assert (G : forall l, incl l (numbered rows) -> forall F, (forall j x, In (j, x) (numbered rows) -> mapM (fun s => reg_log_prob (h x) (nth j s []))
     (map (fun t => map (fun jx : nat * X => noisy (ms (snd jx)) (lvs (snd jx)) (normal k m N (length (ms (snd jx))) t (fst jx))) (numbered rows)) (seq 0 m)) = Ok (map (F j x) (seq 0 m))) ->
     mapM (fun jo => rmap (fun lls => (- rmean lls)%R) (mapM (fun s => reg_log_prob (snd jo) (nth (fst jo) s []))
       (map (fun t => map (fun jx : nat * X => noisy (ms (snd jx)) (lvs (snd jx)) (normal k m N (length (ms (snd jx))) t (fst jx))) (numbered rows)) (seq 0 m))))
       (map (fun ja => (fst ja, h (snd ja))) l) = Ok (map (fun jx => (- raverage m (F (fst jx) (snd jx)))%R) l)).
  { intros l L F HF. induction l as [|[j x] l IH]; [reflexivity|]. cbn [map mapM fst snd].
    rewrite (HF j x (L (j, x) (or_introl eq_refl))). cbn [rmap]. rewrite IH by (intros y I; apply L; now right). cbn [bind]. now rewrite rmean_raverage. }
  rewrite (G (numbered rows) (incl_refl _) (fun j x t => (- (rover (length (ms x)) (fun c => normal_entropy (exp (nth c (lvs x) 0%R))) +
      1 / 2 * (rover (length (ms x)) (fun c => normal k m N (length (ms x)) t j c * normal k m N (length (ms x)) t j c) - INR (length (ms x)))))%R)).
  - f_equal. apply map_ext. intros [j x]. cbn [fst snd]. unfold raverage.
    set (w := length (ms x)). set (e := rover w _).
    rewrite (rover_ext m _ (fun t => (- 1 / 2 * rover w (fun c => normal k m N w t j c * normal k m N w t j c)) + (- e + 1 / 2 * INR w))%R) by (intros; field).
    rewrite rover_plus, rover_scale, rover_const. assert (INR m <> 0)%R by (apply not_0_INR; lia). field. assumption.
  - intros j x I. apply in_numbered in I. rewrite (mapM_ok_map _ (fun s => match reg_log_prob (h x) (nth j s []) with Ok v => v | Err _ => 0%R end)).
    + f_equal. rewrite map_map. apply map_ext_in. intros t _.
      rewrite (nth_error_nth _ j [] (x := noisy (ms x) (lvs x) (normal k m N (length (ms x)) t j))).
      * destruct (P x (nth_error_In _ _ I)) as (-> & E). rewrite noisy_log_prob by exact E. reflexivity.
      * rewrite nth_error_map. unfold numbered. rewrite nth_combine_seq, I. reflexivity.
    + intros s J. apply in_map_iff in J as (t & <- & _).
      rewrite (nth_error_nth _ j [] (x := noisy (ms x) (lvs x) (normal k m N (length (ms x)) t j))).
      * destruct (P x (nth_error_In _ _ I)) as (-> & E). rewrite noisy_log_prob by exact E. reflexivity.
      * rewrite nth_error_map. unfold numbered. rewrite nth_combine_seq, I. reflexivity.
Qed.
