(** Properties C137 to C139: random keys behind predictive quantities.  Proofs are in DrawProofs*.v. *)
From Coq Require Import List Arith Bool QArith Reals String.
From Verif Require Import Lib ConfRegModel LoaderModel PredModel PredSpec DrawModel DrawSpec DrawProofs DrawProofs2 DrawProofs3 DrawCases.
From Verif Require Import Lit.
Import ListNotations.
Local Notation length := List.length.
Local Notation concat := List.concat.
Local Open Scope nat_scope.

(** C137: batches, devices and the draws of a call *)
Theorem C137_mean_rows : forall label P X Y (post : key -> P) (out : P -> X -> Y) mean_of var_of distribute d n rng g loader,
  1 <= n -> divisible distribute d loader ->
  (exists rows, mean label post out mean_of distribute d n rng g loader = (Ok rows, generator_after label rng g)
     /\ Forall2 (fun q x => q == row_mean label post out mean_of n (key_of label rng g) x)%Q rows (concat loader))
  /\ (exists rows, aleatoric_variance label post out var_of distribute d n rng g loader = (Ok rows, generator_after label rng g)
     /\ Forall2 (fun q x => q == row_mean label post out var_of n (key_of label rng g) x)%Q rows (concat loader))
  /\ (exists rows, epistemic_variance label post out mean_of distribute d n rng g loader = (Ok rows, generator_after label rng g)
     /\ Forall2 (fun q x => q == row_spread label post out mean_of n (key_of label rng g) x)%Q rows (concat loader)).
Proof. exact (@mean_rows). Qed.
Print Assumptions C137_mean_rows.
Theorem C137_outputs_rows : forall label P X Y (post : key -> P) (out : P -> X -> Y) distribute d n rng g loader,
  divisible distribute d loader ->
  calibrated_outputs label post out distribute d n rng g loader
  = (Ok (map (fun i => map (out (draw label post (key_of label rng g) n i)) (concat loader)) (seq 0 n)), generator_after label rng g).
Proof. exact (@outputs_rows). Qed.
Print Assumptions C137_outputs_rows.
Theorem C137_variance_rows : forall label P X Y (post : key -> P) (out : P -> X -> Y) mean_of var_of distribute d n rng g loader,
  1 <= n -> divisible distribute d loader ->
  exists rows, variance label post out mean_of var_of distribute d n None None rng g loader = (Ok rows, generator_after label rng g)
    /\ Forall2 (fun q x => Qeq q (Qplus (row_mean label post out var_of n (key_of label rng g ++ [Cut (label 2) 1]) x)
                                 (row_spread label post out mean_of n (key_of label rng g ++ [Cut (label 2) 0; Cut (label 2) 1]) x))) rows (concat loader).
Proof. exact (@variance_rows). Qed.
Print Assumptions C137_variance_rows.
Theorem C137_variance_given : forall label P X Y (post : key -> P) (out : P -> X -> Y) mean_of var_of distribute d n rng g loader,
  (forall a e, variance label post out mean_of var_of distribute d n (Some a) (Some e) rng g loader = (Ok (zip_with Qplus a e), generator_after label rng g))
  /\ (1 <= n -> divisible distribute d loader -> forall a,
      exists e, fst (epistemic_variance label post out mean_of distribute d n (Some (key_of label rng g ++ [Cut (label 2) 1])) g loader) = Ok e
        /\ variance label post out mean_of var_of distribute d n (Some a) None rng g loader = (Ok (zip_with Qplus a e), generator_after label rng g))
  /\ (1 <= n -> divisible distribute d loader -> forall e,
      exists a, fst (aleatoric_variance label post out var_of distribute d n (Some (key_of label rng g ++ [Cut (label 2) 1])) g loader) = Ok a
        /\ variance label post out mean_of var_of distribute d n None (Some e) rng g loader = (Ok (zip_with Qplus a e), generator_after label rng g)).
Proof. exact (@variance_given). Qed.
Print Assumptions C137_variance_given.
Theorem C137_batching : forall label P X Y (post : key -> P) (out : P -> X -> Y) mean_of var_of distribute d distribute' d' n rng g l1 l2,
  1 <= n -> divisible distribute d l1 -> divisible distribute' d' l2 -> concat l1 = concat l2 ->
  mean label post out mean_of distribute d n rng g l1 = mean label post out mean_of distribute' d' n rng g l2
  /\ aleatoric_variance label post out var_of distribute d n rng g l1 = aleatoric_variance label post out var_of distribute' d' n rng g l2
  /\ epistemic_variance label post out mean_of distribute d n rng g l1 = epistemic_variance label post out mean_of distribute' d' n rng g l2
  /\ variance label post out mean_of var_of distribute d n None None rng g l1 = variance label post out mean_of var_of distribute' d' n None None rng g l2
  /\ calibrated_outputs label post out distribute d n rng g l1 = calibrated_outputs label post out distribute' d' n rng g l2.
Proof. exact (@batching). Qed.
Print Assumptions C137_batching.
Example C137_case_hypotheses : divisible false 1 [[1%Q; 2%Q]; [3%Q]] /\ divisible true 3 [[1%Q; 2%Q; 3%Q]] /\ concat [[1%Q; 2%Q]; [3%Q]] = concat [[1%Q; 2%Q; 3%Q]].
Proof. split; [repeat split; [lia|discriminate|discriminate]|]. split; [repeat split; [lia|discriminate|repeat constructor]|reflexivity]. Qed.
Theorem C137_mean_of_outputs : forall label P X Y (post : key -> P) (out : P -> X -> Y) mean_of distribute d n k g g' loader outs ms dy r,
  1 <= n -> divisible distribute d loader ->
  fst (calibrated_outputs label post out distribute d n (Some k) g loader) = Ok outs ->
  fst (mean label post out mean_of distribute d n (Some k) g' loader) = Ok ms ->
  r < length (concat loader) ->
  (nth r ms 0%Q == average n (fun i => mean_of (nth r (nth i outs []) dy)))%Q.
Proof. exact (@mean_of_outputs). Qed.
Print Assumptions C137_mean_of_outputs.
Theorem C137_entropies_one_key : forall label P X Y T (post : key -> P) (out : P -> X -> Y) noise (log_prob : Y -> T -> R) dy dt distribute d n m k g1 g2 g3 loader h a e,
  1 <= n -> 1 <= m ->
  fst (entropy_call label post out noise reg_entropy log_prob dy dt distribute d n m (Some k) g1 loader) = Ok h ->
  fst (entropy_call label post out noise reg_aleatoric log_prob dy dt distribute d n m (Some k) g2 loader) = Ok a ->
  fst (entropy_call label post out noise reg_epistemic log_prob dy dt distribute d n m (Some k) g3 loader) = Ok e ->
  length h = length a /\ length h = length e /\ forall r, nth r h 0%R = (nth r a 0 + nth r e 0)%R.
Proof. exact (@entropies_one_key). Qed.
Print Assumptions C137_entropies_one_key.
Theorem C137_entropy_rows : forall label P X Y T (post : key -> P) (out : P -> X -> Y) (noise : key -> nat -> nat -> nat -> nat -> Y -> T) (log_prob : Y -> T -> R) dy dt distribute d n m rng g loader,
  1 <= n -> 1 <= m -> divisible distribute d loader ->
  let k := key_of label rng g in
  let member i x := out (draw label post (k ++ [Cut (label (1 + n)) 0]) n i) x in
  let target r x j t := noise (k ++ [Cut (label (1 + n)) (1 + j)]) m (length (concat loader)) t r (member j x) in
  exists h a,
    entropy_call label post out noise reg_entropy log_prob dy dt distribute d n m rng g loader = (Ok h, generator_after label rng g)
    /\ entropy_call label post out noise reg_aleatoric log_prob dy dt distribute d n m rng g loader = (Ok a, generator_after label rng g)
    /\ length h = length (concat loader) /\ length a = length (concat loader)
    /\ forall r x, nth_error (concat loader) r = Some x ->
       nth r h 0%R = (- raverage n (fun j => raverage m (fun t => ln (raverage n (fun i => exp (log_prob (member i x) (target r x j t)))))))%R
       /\ nth r a 0%R = (- raverage n (fun j => raverage m (fun t => log_prob (member j x) (target r x j t))))%R.
Proof. exact (@entropy_rows). Qed.
Print Assumptions C137_entropy_rows.
Theorem C137_entropies_batching : forall label P X Y T (post : key -> P) (out : P -> X -> Y) noise (log_prob : Y -> T -> R) dy dt est distribute d distribute' d' n m rng g l1 l2,
  divisible distribute d l1 -> divisible distribute' d' l2 -> concat l1 = concat l2 ->
  entropy_call label post out noise est log_prob dy dt distribute d n m rng g l1 = entropy_call label post out noise est log_prob dy dt distribute' d' n m rng g l2.
Proof. exact (@entropies_batching). Qed.
Print Assumptions C137_entropies_batching.
Theorem C137_outputs_loader : forall label P X Y (post : key -> P) (out : P -> X -> Y) d n rng g loader,
  outputs_loader label post out false d n rng g loader
  = (Ok (map (fun xs => map (fun i => map (out (draw label post (key_of label rng g) n i)) xs) (seq 0 n)) loader), generator_after label rng g).
Proof. exact (@outputs_loader_rows). Qed.
Print Assumptions C137_outputs_loader.
Theorem C137_outputs_loader_devices : forall label P X Y (post : key -> P) (out : P -> X -> Y) d n rng g xs j u x,
  1 <= d -> length xs mod d = 0 -> j < d -> u < length xs / d -> nth_error xs (j * (length xs / d) + u) = Some x ->
  exists outs, outputs_loader label post out true d n rng g [xs] = (Ok [outs], generator_after label rng g)
    /\ length outs = n
    /\ forall i, i < n -> length (nth i outs []) = length xs
       /\ nth_error (nth i outs []) (j * (length xs / d) + u) = Some (out (post (key_of label rng g ++ [Cut (label n) i; Cut (label d) j])) x).
Proof. exact (@outputs_loader_devices). Qed.
Print Assumptions C137_outputs_loader_devices.
Theorem C137_outputs_loader_devices_refuted : forall label g, exists X P Y (post : key -> P) (out : P -> X -> Y) loader,
  loader <> [] /\ fst (outputs_loader label post out true 1 1 None g loader) <> fst (outputs_loader label post out false 1 1 None g loader).
Proof. exact (@outputs_devices). Qed.
Print Assumptions C137_outputs_loader_devices_refuted.
Example C137_case :
  mean (fun n => n) toy_post toy_out (fun y => y) false 1 2 None [] [[1%Q; 2%Q]; [3%Q]]
  = mean (fun n => n) toy_post toy_out (fun y => y) true 3 2 None [] [[1%Q; 2%Q; 3%Q]]
  /\ rmap (map Qred) (fst (mean (fun n => n) toy_post toy_out (fun y => y) false 1 2 None [] [[1%Q; 2%Q]; [3%Q]])) = Ok [(9 # 2)%Q; 9%Q; (27 # 2)%Q]
  /\ fst (outputs_loader (fun n => n) toy_post toy_out true 2 1 (Some []) [] [[1%Q; 2%Q]]) = Ok [[[4%Q; 10%Q]]].
Proof. vm_compute. repeat split; reflexivity. Qed.

(** C138: target samples *)
Theorem C138_explicit_key_refuted : forall label P X Y T (post : key -> P) (out : P -> X -> Y) (noise : key -> nat -> nat -> nat -> nat -> Y -> T) R (quant : list (list T) -> result R) n aux k g loader,
  sample label post out noise n aux (Some k) g loader = (Err ValueError, g)
  /\ quantile label post out noise quant n (Some k) g loader = (Err ValueError, g).
Proof. exact (@sample_with_key). Qed.
Print Assumptions C138_explicit_key_refuted.
Theorem C138_sample_rows : forall label P X Y T (post : key -> P) (out : P -> X -> Y) (noise : key -> nat -> nat -> nat -> nat -> Y -> T) n g loader,
  loader <> [] ->
  exists rows, sample label post out noise n [] None g loader = (Ok (rows, []), g ++ [Cut (label 2) 0])
    /\ length rows = n
    /\ forall t, t < n -> length (nth t rows []) = length (concat loader)
       /\ forall l1 xs l2 j x, loader = l1 ++ xs :: l2 -> nth_error xs j = Some x ->
          nth_error (nth t rows []) (length (concat l1) + j)
          = Some (noise (g ++ [Cut (label 2) 0; Cut (label n) t; Cut (label 2) 1]) 1 (length xs) 0 j
                    (out (post (g ++ [Cut (label 2) 0; Cut (label n) t; Cut (label 2) 0])) x)).
Proof. exact (@sample_rows). Qed.
Print Assumptions C138_sample_rows.
Theorem C138_rows_share_noise_refuted : forall label P X Y T (post : key -> P) (out : P -> X -> Y) (noise : key -> nat -> nat -> nat -> nat -> Y -> T) n g l1 xs l2 xs' l3 rows j t,
  fst (sample label post out noise n [] None g (l1 ++ xs :: l2 ++ xs' :: l3)) = Ok (rows, []) ->
  length xs = length xs' -> j < length xs -> nth_error xs j = nth_error xs' j -> t < n ->
  nth_error (nth t rows []) (length (concat l1) + j) = nth_error (nth t rows []) (length (concat (l1 ++ xs :: l2)) + j).
Proof. exact (@sample_shared_noise). Qed.
Print Assumptions C138_rows_share_noise_refuted.
Theorem C138_regression_rows : forall label P X Y T Z (post : key -> P) (out : P -> X -> Y) (place : Y -> Z -> T) normal n g loader rows t l1 xs l2 j x,
  fst (sample label post out (reg_noise place normal) n [] None g loader) = Ok (rows, []) ->
  t < n -> loader = l1 ++ xs :: l2 -> nth_error xs j = Some x ->
  nth_error (nth t rows []) (length (concat l1) + j)
  = Some (place (out (post (g ++ [Cut (label 2) 0; Cut (label n) t; Cut (label 2) 0])) x)
            (normal (g ++ [Cut (label 2) 0; Cut (label n) t; Cut (label 2) 1]) 1 (length xs) 0 j)).
Proof. exact (@regression_rows). Qed.
Print Assumptions C138_regression_rows.
Theorem C138_class_row_keys : forall label Y T (choice : key -> nat -> nat -> Y -> T) k m b t j y, j < b ->
  class_noise label choice k m b t j y = choice (k ++ [Cut (label b) j]) m t y
  /\ forall j', j' <> j -> apart (k ++ [Cut (label b) j]) (k ++ [Cut (label b) j']).
Proof. exact (@class_row_keys). Qed.
Print Assumptions C138_class_row_keys.
Theorem C138_batching_refuted : forall label g, exists X P Y T (post : key -> P) (out : P -> X -> Y) (choice : key -> nat -> nat -> Y -> T) l1 l2,
  List.concat l1 = List.concat l2 /\ l1 <> [] /\ l2 <> []
  /\ fst (sample label post out (class_noise label choice) 1 [] None g l1) <> fst (sample label post out (class_noise label choice) 1 [] None g l2).
Proof. exact (@sample_batching). Qed.
Print Assumptions C138_batching_refuted.
Theorem C138_auxiliary_outputs_refuted : forall label P X Y T (post : key -> P) (out : P -> X -> Y) (noise : key -> nat -> nat -> nat -> nat -> Y -> T) n aux g loader b,
  1 <= n -> aux <> [] -> Forall (eq "outputs"%string) aux -> loader <> [] ->
  (Forall (fun xs => length xs = b) loader ->
   exists rows, sample label post out noise n aux None g loader = (Ok (rows, []), g ++ [Cut (label 2) 0])
     /\ length rows = length loader * n /\ Forall (fun r => length r = b) rows
     /\ forall i xs t, nth_error loader i = Some xs -> t < n ->
        exists plain, fst (sample label post out noise n [] None g [xs]) = Ok (plain, [])
          /\ nth_error rows (i * n + t) = nth_error plain t)
  /\ (forall xs ys, In xs loader -> In ys loader -> length xs <> length ys ->
      fst (sample label post out noise n aux None g loader) = Err ValueError).
Proof. exact (@sample_aux). Qed.
Print Assumptions C138_auxiliary_outputs_refuted.
Theorem C138_unknown_auxiliary : forall label P X Y T (post : key -> P) (out : P -> X -> Y) (noise : key -> nat -> nat -> nat -> nat -> Y -> T) n aux g loader s,
  In s aux -> s <> "outputs"%string -> loader <> [] -> fst (sample label post out noise n aux None g loader) = Err TypeError.
Proof. exact (@sample_aux_unknown). Qed.
Print Assumptions C138_unknown_auxiliary.
Example C138_case :
  fst (sample (fun n => n) toy_post toy_out (class_noise (fun n => n) toy_choice) 2 [] None [] [[1%Q; 2%Q]; [3%Q; 4%Q]])
  = Ok ([[0; 1; 0; 1]; [0; 1; 0; 1]], [])
  /\ fst (sample (fun n => n) toy_post toy_out (class_noise (fun n => n) toy_choice) 2 ["outputs"%string] None [] [[1%Q; 2%Q]; [3%Q; 4%Q]])
  = Ok ([[0; 1]; [0; 1]; [0; 1]; [0; 1]], [])
  /\ fst (sample (fun n => n) toy_post toy_out (class_noise (fun n => n) toy_choice) 2 ["outputs"%string] None [] [[1%Q; 2%Q]; [3%Q]]) = Err ValueError.
Proof. vm_compute. repeat split; reflexivity. Qed.

(** C139: independence of the draws of successive calls *)
Theorem C139_history : forall label g cs, Forall (clean label) cs -> no_variances_twice cs -> independent (history label g cs).
Proof. exact (@history_independent). Qed.
Print Assumptions C139_history.
Example C139_case_clean : Forall (clean (fun n => n)) [Average 3; Variances 1; Samples 1; Variances 2] /\ no_variances_twice [Average 3; Variances 1; Samples 1; Variances 2].
Proof. split; [repeat constructor; cbn; lia|]. intros [|c1 [|c2 [|c3 [|c4 [|c5 l]]]]] n m r E; inversion E. Qed.
Theorem C139_one_call : forall label k c, independent (drawn label k c).
Proof. exact (@drawn_independent). Qed.
Print Assumptions C139_one_call.
Theorem C139_average_draws : forall label P X Y (post post' : key -> P) (out : P -> X -> Y) mean_of var_of distribute d n rng g loader,
  1 <= n -> divisible distribute d loader ->
  (forall a, In a (drawn label (key_of label rng g) (Average n)) -> post a = post' a) ->
  mean label post out mean_of distribute d n rng g loader = mean label post' out mean_of distribute d n rng g loader
  /\ aleatoric_variance label post out var_of distribute d n rng g loader = aleatoric_variance label post' out var_of distribute d n rng g loader
  /\ epistemic_variance label post out mean_of distribute d n rng g loader = epistemic_variance label post' out mean_of distribute d n rng g loader
  /\ calibrated_outputs label post out distribute d n rng g loader = calibrated_outputs label post' out distribute d n rng g loader.
Proof. exact (@average_draws). Qed.
Print Assumptions C139_average_draws.
Theorem C139_variances_draws : forall label P X Y (post post' : key -> P) (out : P -> X -> Y) mean_of var_of distribute d n rng g loader,
  1 <= n -> divisible distribute d loader ->
  (forall a, In a (drawn label (key_of label rng g) (Variances n)) -> post a = post' a) ->
  variance label post out mean_of var_of distribute d n None None rng g loader = variance label post' out mean_of var_of distribute d n None None rng g loader.
Proof. exact (@variances_draws). Qed.
Print Assumptions C139_variances_draws.
Theorem C139_samples_draws : forall label P X Y T (post post' : key -> P) (out : P -> X -> Y) (noise noise' : key -> nat -> nat -> nat -> nat -> Y -> T) n g loader,
  loader <> [] ->
  (forall a, In a (drawn label (key_of label None g) (Samples n)) -> post a = post' a /\ forall m b t j y, noise a m b t j y = noise' a m b t j y) ->
  sample label post out noise n [] None g loader = sample label post' out noise' n [] None g loader.
Proof. exact (@samples_draws). Qed.
Print Assumptions C139_samples_draws.
Theorem C139_entropies_draws : forall label P X Y T (post post' : key -> P) (out : P -> X -> Y) (noise noise' : key -> nat -> nat -> nat -> nat -> Y -> T) (log_prob : Y -> T -> R) dy dt est distribute d n m rng g loader,
  divisible distribute d loader ->
  (forall a, In a (drawn label (key_of label rng g) (Entropies n)) -> post a = post' a /\ forall m b t j y, noise a m b t j y = noise' a m b t j y) ->
  entropy_call label post out noise est log_prob dy dt distribute d n m rng g loader = entropy_call label post' out noise' est log_prob dy dt distribute d n m rng g loader.
Proof. exact (@entropies_draws). Qed.
Print Assumptions C139_entropies_draws.
Theorem C139_variances_twice_refuted : forall label g n cs, 1 <= n ->
  exists a l1 l2 l3, history label g (Variances n :: Variances n :: cs) = l1 ++ a :: l2 ++ a :: l3.
Proof. exact (@variances_twice). Qed.
Print Assumptions C139_variances_twice_refuted.
Theorem C139_average_then_any_refuted : forall label g n c cs, 1 <= n -> label n = label 2 -> draws_something c ->
  ~ independent (history label g (Average n :: c :: cs)).
Proof. exact (@average_then_any). Qed.
Print Assumptions C139_average_then_any_refuted.
Theorem C139_samples_then_average_refuted : forall label g n m cs, 1 <= n -> 2 <= m -> label n = label 2 -> label m = label 2 ->
  exists post_key noise_key l1 l2 l3 l1' l2' l3',
    history label g (Samples n :: Average m :: cs) = l1 ++ post_key :: l2 ++ post_key :: l3
    /\ history label g (Samples n :: Average m :: cs) = l1' ++ noise_key :: l2' ++ noise_key :: l3'
    /\ post_key <> noise_key.
Proof. exact (@samples_then_average). Qed.
Print Assumptions C139_samples_then_average_refuted.
Theorem C139_entropies_then_average_refuted : forall label g n cs, 1 <= n -> label (1 + n) = label 2 ->
  exists a l1 l2 l3, history label g (Entropies n :: Average n :: cs) = l1 ++ a :: l2 ++ a :: l3.
Proof. exact (@entropies_then_average). Qed.
Print Assumptions C139_entropies_then_average_refuted.
Example C139_case :
  history (fun n => n) [] [Average 3; Variances 1; Samples 1]
  = [[Cut 2 0; Cut 3 0]; [Cut 2 0; Cut 3 1]; [Cut 2 0; Cut 3 2];
     [Cut 2 0; Cut 2 0; Cut 2 1; Cut 1 0]; [Cut 2 0; Cut 2 0; Cut 2 0; Cut 2 1; Cut 1 0];
     [Cut 2 0; Cut 2 0; Cut 2 0; Cut 1 0; Cut 2 0]; [Cut 2 0; Cut 2 0; Cut 2 0; Cut 1 0; Cut 2 1]]
  /\ history (fun n => 0) [] [Variances 1; Variances 1]
  = [[Cut 0 0; Cut 0 1; Cut 0 0]; [Cut 0 0; Cut 0 0; Cut 0 1; Cut 0 0];
     [Cut 0 0; Cut 0 0; Cut 0 1; Cut 0 0]; [Cut 0 0; Cut 0 0; Cut 0 0; Cut 0 1; Cut 0 0]].
Proof. vm_compute. repeat split; reflexivity. Qed.
