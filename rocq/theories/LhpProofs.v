(** Estimators at fixed parameters are computed row by row. *)
From Coq Require Import List Arith ZArith QArith Bool Reals Lia Lra String.
From Verif Require Import Lib ConfRegModel QuantModel LoaderModel LoaderProofs2 TempModel TempSpec TempProofs3 MetricSpec PredModel PredSpec PredProofs4
  PredProofs5 DrawModel DrawSpec DrawProofs DrawProofs2 LhpModel LhpSpec.
Import ListNotations.
Local Notation length := List.length.
Local Notation concat := List.concat.
Local Open Scope R_scope.
Local Open Scope nat_scope.

Lemma softmax_probabilities o : softmax o = probabilities o.
Proof. reflexivity. Qed.

Lemma batched_by {X} (net : list X -> list (list R)) manager h : outputs_by net manager h -> forall xs, batched_outputs net manager xs = map h xs.
Proof.
  intros (g & c & N & M & H) xs. unfold batched_outputs, calibrate. rewrite N.
  destruct manager as [[f|]|]; rewrite ?M, ?map_map; apply map_ext; intros; rewrite H, ?M; reflexivity.
Qed.

Theorem calibrated_outputs_rows : forall X (net : list X -> list (list R)) manager h distribute d loader,
  outputs_by net manager h -> divisible distribute d loader ->
  get_calibrated_outputs net manager distribute d loader = Ok (map h (concat loader)).
Proof.
  intros X net manager h distribute d loader (g & c & N & M & H) (D & NE & F). unfold get_calibrated_outputs, get_outputs.
  rewrite (loop_fun_ext _ _ distribute d loader N), loop_fun_rowwise by assumption. cbn [rmap]. f_equal. unfold calibrate.
  destruct manager as [[f|]|]; rewrite ?M, ?map_map; apply map_ext; intros; rewrite H, ?M; reflexivity.
Qed.

Lemma loop_rows {A B} (f : list A -> list B) g distribute d loader : (forall b, f b = map g b) -> divisible distribute d loader ->
  loop_fun distribute d f loader = Ok (map g (concat loader)).
Proof. intros E (D & NE & F). rewrite (loop_fun_ext _ _ distribute d loader E). now apply loop_fun_rowwise. Qed.

Theorem classification_rows : forall X (net : list X -> list (list R)) manager h distribute d loader,
  outputs_by net manager h -> divisible distribute d loader -> (forall x, In x (concat loader) -> h x <> []) ->
  class_mean net manager distribute d loader = Ok (map (fun x => probabilities (h x)) (concat loader)) /\
  class_variance net manager distribute d loader = Ok (map (fun x => map (fun p => (p * (1 - p))%R) (probabilities (h x))) (concat loader)) /\
  (exists labels, class_mode net manager distribute d loader = Ok labels /\ Forall2 (fun x i => first_max (h x) i) (concat loader) labels) /\
  (exists hs, class_entropy net manager distribute d loader = Ok hs /\
     Forall2 (fun x e => e = shannon (length (h x)) (fun i => nth i (probabilities (h x)) 0%R) /\ (0 <= e <= ln (INR (length (h x))))%R) (concat loader) hs).
Proof.
  intros X net manager h distribute d loader O D NE. pose proof (batched_by net manager h O) as B. split; [|split; [|split]].
  - apply loop_rows; [|exact D]. intros b. unfold class_batched_mean. now rewrite B, map_map.
  - apply loop_rows; [|exact D]. intros b. unfold class_batched_variance, class_batched_mean. now rewrite B, !map_map.
  - exists (map (fun x => rargmax (h x)) (concat loader)). split.
    + apply loop_rows; [|exact D]. intros b. unfold class_batched_mode. now rewrite B, map_map.
    + clear - NE. induction (concat loader) as [|x l IH]; constructor.
      * apply rargmax_spec, NE. now left.
      * apply IH. intros y I. apply NE. now right.
  - exists (map (fun x => layer_entropy (h x)) (concat loader)). split.
    + unfold class_entropy. rewrite (calibrated_outputs_rows X net manager h distribute d loader O D). cbn [rmap]. now rewrite map_map.
    + clear - NE. induction (concat loader) as [|x l IH]; constructor.
      * apply layer_entropy_spec, NE. now left.
      * apply IH. intros y I. apply NE. now right.
Qed.

Lemma half_app {A} (ms lvs : list A) : length ms = length lvs -> length (ms ++ lvs) / 2 = length ms.
Proof. intros E. rewrite app_length, <- E. replace (length ms + length ms) with (length ms * 2) by lia. apply Nat.div_mul. lia. Qed.
Lemma firstn_half {A} (ms lvs : list A) : length ms = length lvs -> firstn (length (ms ++ lvs) / 2) (ms ++ lvs) = ms.
Proof. intros E. rewrite half_app by exact E. now rewrite firstn_app, Nat.sub_diag, firstn_all, app_nil_r. Qed.
Lemma skipn_half {A} (ms lvs : list A) : length ms = length lvs -> skipn (length (ms ++ lvs) / 2) (ms ++ lvs) = lvs.
Proof. intros E. rewrite half_app by exact E. now rewrite skipn_app, Nat.sub_diag, skipn_all. Qed.

Lemma loop_rows_in {A B} (f : list A -> list B) g distribute d loader : (forall b, In b loader -> forall s, incl s b -> f s = map g s) -> divisible distribute d loader ->
  loop_fun distribute d f loader = Ok (map g (concat loader)).
Proof.
  intros E D. rewrite <- (loop_rows (map g) g distribute d loader (fun b => eq_refl) D). unfold loop_fun. destruct D as (D & _ & F). destruct distribute.
  - f_equal. specialize (F eq_refl). clear - E D F. induction loader as [|b l IH]; [reflexivity|]. cbn [mapM].
    rewrite IH; [|intros b' I; apply E; now right|now inversion F].
    inversion F as [|? ? M _]; subst. destruct (reshape_devices_ok d b D M) as (sh & R & C & _). rewrite R. cbn [rmap]. do 3 f_equal.
    apply map_ext_in. intros s I. apply (E b); [now left|]. intros y J. rewrite <- C. apply in_concat. now exists s.
  - f_equal. apply map_ext_in. intros b I. apply (E b I). apply incl_refl.
Qed.

Theorem regression_rows : forall X (net : list X -> list (list R)) manager h ms lvs distribute d loader,
  outputs_by net manager h -> divisible distribute d loader ->
  (forall x, In x (concat loader) -> h x = ms x ++ lvs x /\ length (ms x) = length (lvs x)) ->
  reg_mean net manager distribute d loader = Ok (map ms (concat loader)) /\
  reg_mode net manager distribute d loader = Ok (map ms (concat loader)) /\
  reg_variance net manager distribute d loader = Ok (map (fun x => map exp (lvs x)) (concat loader)).
Proof.
  intros X net manager h ms lvs distribute d loader O D W. pose proof (batched_by net manager h O) as B.
  assert (I : forall b, In b loader -> forall s, incl s b -> forall x, In x s -> h x = ms x ++ lvs x /\ length (ms x) = length (lvs x)).
  { intros b J s K x L. apply W, in_concat. exists b. split; [exact J|now apply K]. }
  assert (M : reg_mean net manager distribute d loader = Ok (map ms (concat loader))).
  { apply loop_rows_in; [|exact D]. intros b J s K. unfold reg_batched_mean. rewrite B, map_map. apply map_ext_in. intros x L.
    destruct (I b J s K x L) as (-> & E). now apply firstn_half. }
  split; [exact M|split; [exact M|]].
  apply loop_rows_in; [|exact D]. intros b J s K. unfold reg_batched_variance. rewrite B, map_map. apply map_ext_in. intros x L.
  destruct (I b J s K x L) as (-> & E). now rewrite skipn_half.
Qed.

Lemma mapM_id_ok {A} (l : list A) : mapM (fun r => r) (map Ok l) = Ok l.
Proof. induction l as [|x l IH]; [reflexivity|]. cbn [map mapM]. now rewrite IH. Qed.
Lemma zip_with_map {A B C D} (f : B -> C -> D) (g : A -> B) (k : A -> C) (l : list A) : zip_with f (map g l) (map k l) = map (fun x => f (g x) (k x)) l.
Proof. unfold zip_with. induction l as [|x l IH]; [reflexivity|]. cbn [map combine]. now f_equal. Qed.

Theorem log_prob_rows : forall X T (net : list X -> list (list R)) manager h (lp : list R -> T -> result R) v distribute d (loader : list (list (X * T))),
  outputs_by net manager h -> divisible distribute d loader ->
  (forall x y, In (x, y) (concat loader) -> lp (h x) y = Ok (v x y)) ->
  log_prob net manager lp distribute d loader = Ok (map (fun xy => v (fst xy) (snd xy)) (concat loader)).
Proof.
  intros X T net manager h lp v distribute d loader O D V. unfold log_prob.
  rewrite (loop_rows _ (fun xy => lp (h (fst xy)) (snd xy)) distribute d loader); [|intros b|exact D].
  - cbn [bind].
    transitivity (mapM (fun r => r) (map Ok (map (fun xy => v (fst xy) (snd xy)) (concat loader)))); [|apply mapM_id_ok].
    f_equal. rewrite map_map. apply map_ext_in. intros [x y] I. now apply V.
  - rewrite (batched_by net manager h O), map_map. apply zip_with_map.
Qed.

Theorem class_log_prob_rows : forall X (net : list X -> list (list R)) manager h distribute d (loader : list (list (X * nat))),
  outputs_by net manager h -> divisible distribute d loader ->
  (forall x y, In (x, y) (concat loader) -> y < length (h x)) ->
  log_prob net manager (fun o y => Ok (class_log_prob o y)) distribute d loader
  = Ok (map (fun xy => ln (nth (snd xy) (probabilities (h (fst xy))) 0%R)) (concat loader)).
Proof.
  intros X net manager h distribute d loader O D L.
  apply (log_prob_rows X nat net manager h _ (fun x y => ln (nth y (probabilities (h x)) 0%R))); [exact O|exact D|].
  intros x y I. f_equal. apply log_prob_ln, (L x y I).
Qed.

Theorem reg_log_prob_rows : forall X (net : list X -> list (list R)) manager h ms lvs distribute d (loader : list (list (X * list R))),
  outputs_by net manager h -> divisible distribute d loader ->
  (forall x y, In (x, y) (concat loader) -> h x = ms x ++ lvs x /\ length (ms x) = length (lvs x) /\ length y = length (ms x)) ->
  log_prob net manager reg_log_prob distribute d loader
  = Ok (map (fun xy => gauss_log_density (ms (fst xy)) (lvs (fst xy)) (snd xy)) (concat loader)).
Proof.
  intros X net manager h ms lvs distribute d loader O D L.
  apply (log_prob_rows X (list R) net manager h _ (fun x y => gauss_log_density (ms x) (lvs x) y)); [exact O|exact D|].
  intros x y I. destruct (L x y I) as (-> & E & E'). destruct (reg_layer_spec (ms x) (lvs x) E) as (_ & _ & P).
  destruct (P y E') as (l & -> & ->). f_equal. unfold gauss_log_density, rover. f_equal. apply map_ext_in. intros i J. apply in_seq in J.
  f_equal. rewrite (nth_indep _ 0%R (exp 0)) by (rewrite map_length; lia). apply map_nth.
Qed.

Theorem std_spec : forall given variance,
  std None variance = rmap (map (map sqrt)) variance /\ std (Some given) variance = Ok (map (map sqrt) given).
Proof. intros. split; reflexivity. Qed.

Lemma loop_nil {A B} distribute d (f : list A -> list B) : loop_fun distribute d f [] = Err ValueError.
Proof. destruct distribute; reflexivity. Qed.

Theorem bad_loaders : forall X (net : list X -> list (list R)) manager T (lp : list R -> T -> result R) distribute d loader (data : list (list (X * T))),
  loader = [] /\ data = [] \/
  distribute = true /\ 1 <= d /\ Exists (fun b => length b mod d <> 0) loader /\ Exists (fun b => length b mod d <> 0) data ->
  get_calibrated_outputs net manager distribute d loader = Err ValueError /\
  class_mean net manager distribute d loader = Err ValueError /\ class_mode net manager distribute d loader = Err ValueError /\
  class_variance net manager distribute d loader = Err ValueError /\ class_entropy net manager distribute d loader = Err ValueError /\
  reg_mean net manager distribute d loader = Err ValueError /\ reg_mode net manager distribute d loader = Err ValueError /\
  reg_variance net manager distribute d loader = Err ValueError /\ log_prob net manager lp distribute d data = Err ValueError.
Proof.
  intros X net manager T lp distribute d loader data H.
  assert (L : forall B (f : list X -> list B), loop_fun distribute d f loader = Err ValueError).
  { intros B f. destruct H as [(-> & _)|(-> & D & E & _)]; [apply loop_nil|now apply loop_fun_indivisible]. }
  assert (M : forall B (f : list (X * T) -> list B), loop_fun distribute d f data = Err ValueError).
  { intros B f. destruct H as [(_ & ->)|(-> & D & _ & E)]; [apply loop_nil|now apply loop_fun_indivisible]. }
  unfold class_entropy, get_calibrated_outputs, get_outputs, log_prob. rewrite !L, M.
  repeat split; try reflexivity; apply L.
Qed.

(** odd outputs *)
Lemma halves_odd o : Nat.Odd (length o) -> halves o = Err ValueError.
Proof. intros H. unfold halves. destruct (Nat.even (length o)) eqn:E; [|reflexivity].
  apply Nat.even_spec in E. exfalso. eapply Nat.Even_Odd_False; eauto.
Qed.

Theorem odd_widths : forall X (net : list X -> list (list R)) manager h distribute d loader (data : list (list (X * list R))) w,
  outputs_by net manager h -> divisible distribute d loader -> divisible distribute d data -> concat data <> [] ->
  (forall x, length (h x) = S (2 * w)) ->
  (exists means, reg_mean net manager distribute d loader = Ok means /\ Forall (fun m => length m = w) means) /\
  (exists vars, reg_variance net manager distribute d loader = Ok vars /\ Forall (fun v => length v = S w) vars) /\
  log_prob net manager reg_log_prob distribute d data = Err ValueError.
Proof.
  intros X net manager h distribute d loader data w O D D' NE W. pose proof (batched_by net manager h O) as B.
  assert (HW : S (2 * w) / 2 = w) by (replace (S (2 * w)) with (1 + w * 2) by lia; rewrite Nat.div_add by lia; reflexivity).
  split; [|split].
  - eexists. split.
    + apply (loop_rows _ (fun x => firstn (length (h x) / 2) (h x))); [|exact D]. intros b. unfold reg_batched_mean. now rewrite B, map_map.
    + apply Forall_map, Forall_forall. intros x _. rewrite firstn_length, W, HW. lia.
  - eexists. split.
    + apply (loop_rows _ (fun x => map exp (skipn (length (h x) / 2) (h x)))); [|exact D]. intros b. unfold reg_batched_variance. now rewrite B, map_map.
    + apply Forall_map, Forall_forall. intros x _. rewrite map_length, skipn_length, W, HW. lia.
  - unfold log_prob. rewrite (loop_rows _ (fun xy => reg_log_prob (h (fst xy)) (snd xy)) distribute d data); [|intros b|exact D'].
    + cbn [bind]. destruct (concat data) as [|xy r]; [congruence|]. cbn [map mapM]. unfold reg_log_prob at 1. rewrite halves_odd; [reflexivity|].
      exists w. rewrite W. lia.
    + rewrite B, map_map. apply zip_with_map.
Qed.

(** a calibrator that looks at the whole array it is given *)
Definition shift_by_count (os : list (list R)) : list (list R) := map (map (fun v => (INR (length os) * v)%R)) os.
Theorem calibrator_whole : exists (net : list unit -> list (list R)) manager loader os ms,
  get_calibrated_outputs net manager false 1 loader = Ok os /\ reg_mean net manager false 1 loader = Ok ms /\
  ms <> map (fun o => firstn (length o / 2) o) os.
Proof.
  exists (map (fun _ => [1%R; 0%R])), (Some (Some shift_by_count)), [[tt]; [tt]]. eexists. eexists. split; [reflexivity|split; [reflexivity|]].
  cbv -[Rmult INR IZR Rplus]. intros H. injection H as H1 H2. cbn in H1. lra.
Qed.
