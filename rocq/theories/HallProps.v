(** Theorems about hallucination detection. *)
From Coq Require Import List Arith ZArith QArith Bool Ascii String Reals.
From Verif Require Import Lib QuantModel ConfRegModel ConfClassModel MultiModel TextModel HallModel HallSpec HallProofs HallProofs2 HallProofs3 HallProofs4 HallProofs5 HallCases.
From Verif Require Import Lit.
Import ListNotations.
Local Notation length := List.length.
Open Scope R_scope.
Open Scope list_scope.

(** C99: inverse perplexity *)
Theorem C99_geometric_mean : forall logits labels n, length logits = length labels -> in_vocabulary logits labels -> (1 <= n < length labels)%nat ->
  exists x, inv_perplexity logits labels n = Ok (Some x) /\ 0 < x <= 1 /\ x ^ n = product (next_token_probs logits labels (length labels - n) n).
Proof. exact (@geometric). Qed.
Print Assumptions C99_geometric_mean.
Example C99_case_vocabulary : in_vocabulary [[0; ln 3]; [0; ln 3]; [0; ln 3]] [0; 1; 0]%nat.
Proof. intros i H. cbn in H. destruct i as [|[|[|i]]]; try lia; cbn; lia. Qed.
Theorem C99_all_tokens : forall logits labels n, length logits = length labels -> in_vocabulary logits labels -> (2 <= length labels)%nat -> n = 0%nat \/ (length labels <= n)%nat ->
  exists x, inv_perplexity logits labels n = Ok (Some x) /\ 0 < x <= 1 /\ x ^ (length labels - 1) = product (next_token_probs logits labels 1 (length labels - 1)).
Proof. exact (@geometric_all). Qed.
Print Assumptions C99_all_tokens.
Theorem C99_nothing_to_score : forall logits labels n, length logits = length labels -> (length labels <= 1)%nat -> inv_perplexity logits labels n = Ok None.
Proof. exact (@nothing_to_score). Qed.
Print Assumptions C99_nothing_to_score.
Theorem C99_unknown_token : forall logits labels n, length logits = length labels ->
  (inv_perplexity logits labels n = Err IndexError <-> ~ in_vocabulary logits labels).
Proof. exact (@unknown_token). Qed.
Print Assumptions C99_unknown_token.
Theorem C99_equal_lengths : forall lm pad nc nt batch i p, Forall (fun p => length (fst p) = nc /\ length (snd p) = nt) batch -> nth_error batch i = Some p ->
  nth_error (score_batch lm pad batch) i = nth_error (score_batch lm pad [p]) 0.
Proof. exact (@batch_of_one). Qed.
Print Assumptions C99_equal_lengths.
Theorem C99_padding_refuted : exists lm pad p q x y, score_batch lm pad [p] = [Ok (Some x)] /\ nth_error (score_batch lm pad [p; q]) 0 = Some (Ok (Some y)) /\ y < x.
Proof. exact (@padding_refuted). Qed.
Print Assumptions C99_padding_refuted.
Example C99_case : exists x, inv_perplexity [[0; ln 3]; [0; ln 3]; [0; ln 3]] [0; 1; 0]%nat 2 = Ok (Some x) /\ x * x = 3 / 16.
Proof. exact toy_score_value. Qed.

(** C100: grouping model *)
Theorem C100_normalized : forall train zs, train <> [] -> normalize train train = Some zs ->
  length zs = length train /\ average zs = 0 /\ average (map (fun z => z * z) zs) = 1.
Proof. exact (@normalized). Qed.
Print Assumptions C100_normalized.
Theorem C100_normalize_undefined : forall train xs, train <> [] -> (normalize train xs = None <-> forall x y, In x train -> In y train -> x = y).
Proof. exact (@normalize_undefined). Qed.
Print Assumptions C100_normalize_undefined.
Theorem C100_normalize_affine : forall train xs zs, normalize train xs = Some zs -> exists a b, a <> 0 /\ normalize train train = Some (map (fun x => a * x + b) train) /\ zs = map (fun x => a * x + b) xs.
Proof. exact (@normalize_others). Qed.
Print Assumptions C100_normalize_affine.
Open Scope Q_scope.
Theorem C100_best_model : forall M F (fit : M -> F) bic models f, fit_best_model fit bic models = Ok f ->
  exists l1 m l2 b, models = l1 ++ m :: l2 /\ f = fit m /\ bic f = Some b /\
    (forall m' b', In m' l1 -> bic (fit m') = Some b' -> b < b') /\ (forall m' b', In m' l2 -> bic (fit m') = Some b' -> b <= b').
Proof. exact (@best_fit). Qed.
Print Assumptions C100_best_model.
Theorem C100_no_model : forall M F (fit : M -> F) bic models,
  fit_best_model fit bic models = Err UnboundLocalErr <-> (forall m, In m models -> bic (fit m) = None).
Proof. exact (@no_fit). Qed.
Print Assumptions C100_no_model.
Theorem C100_hard : forall probs i row, nth_error probs i = Some row -> row <> [] ->
  exists out, nth_error (hard_predict probs) i = Some out /\ length out = length row /\
    exists j, (j < length row)%nat /\ (forall k, (k < length row)%nat -> nth k row 0 <= nth j row 0) /\ (forall k, (k < j)%nat -> nth k row 0 < nth j row 0) /\
      forall k, (nth k out false = true <-> k = j).
Proof. exact (@hard_row). Qed.
Print Assumptions C100_hard.
Theorem C100_group_sizes : forall k probs t j c, (j < k)%nat -> (forall row, In row probs -> length row = k) ->
  (c <= length probs)%nat -> t * (inject_Z (Z.of_nat (length probs)) - 1) + inject_Z (Z.of_nat c) <= inject_Z (Z.of_nat (length probs)) ->
  (c <= members j (get_groups (compute_quantile k probs t) probs))%nat.
Proof. exact (@group_sizes). Qed.
Print Assumptions C100_group_sizes.
Theorem C100_group_nonempty : forall k probs t j, (j < k)%nat -> (forall row, In row probs -> length row = k) -> probs <> [] -> t <= 1 ->
  (1 <= members j (get_groups (compute_quantile k probs t) probs))%nat.
Proof. exact (@group_nonempty). Qed.
Print Assumptions C100_group_nonempty.
Theorem C100_soft_sizes : forall k probs t j c, (j < k)%nat -> (forall row, In row probs -> length row = k) ->
  (c <= length probs)%nat -> inject_Z (Z.of_nat c) <= t * (inject_Z (Z.of_nat (length probs)) - 1) + 1 ->
  (members j (soft_predict k probs t) + c <= length probs)%nat.
Proof. exact (@soft_sizes). Qed.
Print Assumptions C100_soft_sizes.
Theorem C100_soft_within : forall k probs t i row out grp j, (forall row, In row probs -> length row = k) -> nth_error probs i = Some row ->
  nth_error (soft_predict k probs t) i = Some out -> nth_error (get_groups (compute_quantile k probs t) probs) i = Some grp ->
  length out = k /\ length grp = S k /\ nth k grp false = true /\ (nth j out false = true -> nth j grp false = true).
Proof. exact (@soft_within). Qed.
Print Assumptions C100_soft_within.
Theorem C100_soft_empty_refuted : exists k probs t j, (forall row, In row probs -> length row = k) /\ (j < k)%nat /\ probs <> [] /\ 0 <= t /\ t <= 1 /\ members j (soft_predict k probs t) = 0%nat.
Proof. exact (@soft_empty_refuted). Qed.
Print Assumptions C100_soft_empty_refuted.
Theorem C100_groups_pointwise : forall q scores i row, nth_error scores i = Some row -> nth_error (get_groups q scores) i = nth_error (get_groups q [row]) 0.
Proof. exact (@groups_pointwise). Qed.
Print Assumptions C100_groups_pointwise.
Example C100_case_best : fit_best_model (fun n : nat => n) (fun n => nth n [Some 3; None; Some 1; Some 1] None) [0; 1; 2; 3]%nat = Ok 2%nat.
Proof. vm_compute. reflexivity. Qed.
Example C100_case_groups : get_groups (compute_quantile 2 [[1 # 4; 3 # 4]; [1 # 2; 1 # 2]; [3 # 4; 1 # 4]] (1 # 2)) [[1 # 4; 3 # 4]; [1 # 2; 1 # 2]; [3 # 4; 1 # 4]]
  = [[false; true; true]; [true; true; true]; [true; false; true]].
Proof. vm_compute. reflexivity. Qed.
Example C100_case_hard : hard_predict [[1 # 4; 3 # 4]; [1 # 2; 1 # 2]] = [[false; true]; [true; false]].
Proof. vm_compute. reflexivity. Qed.

(** C101: fitting and predicting *)
Theorem C101_unfitted : forall Rd G E T C (score : list T -> list C -> result (list (Q * E))) (reduce : Rd -> list E -> result (list E)) (group_proba : G -> list (E * Q) -> list (list Q)) red texts contexts b c,
  hm_predict_proba score reduce group_proba (hobject0 red) texts contexts b c = Err ValueError.
Proof. exact (@unfitted_proba'). Qed.
Print Assumptions C101_unfitted.
Theorem C101_unfitted_predict : forall Rd G E T C (score : list T -> list C -> result (list (Q * E))) (reduce : Rd -> list E -> result (list E)) (group_proba : G -> list (E * Q) -> list (list Q)) red texts contexts b c,
  hm_predict score reduce group_proba (hobject0 red) texts contexts b c None = Err ValueError.
Proof. exact (@unfitted_predict'). Qed.
Print Assumptions C101_unfitted_predict.
Theorem C101_labels : forall Rd G E T C (score : list T -> list C -> result (list (Q * E))) (reduce : Rd -> list E -> result (list E)) (group_proba : G -> list (E * Q) -> list (list Q)) h texts contexts b c ps,
  exists ys, hm_predict score reduce group_proba h texts contexts b c (Some ps) = Ok ys /\ length ys = length ps /\
  forall i p, nth_error ps i = Some p -> nth_error ys i = Some (if Qlt_le_dec p (1 # 2) then 0%nat else 1%nat).
Proof. exact (@predict_given'). Qed.
Print Assumptions C101_labels.
Theorem C101_predict : forall Rd G E T C (score : list T -> list C -> result (list (Q * E))) (reduce : Rd -> list E -> result (list E)) (group_proba : G -> list (E * Q) -> list (list Q)) h texts contexts b c,
  hm_predict score reduce group_proba h texts contexts b c None = bind (hm_predict_proba score reduce group_proba h texts contexts b c) (fun ps => hm_predict score reduce group_proba h texts contexts b c (Some ps)).
Proof. exact (@predict_same'). Qed.
Print Assumptions C101_predict.
Theorem C101_uncalibrated : forall Rd G E T C (score : list T -> list C -> result (list (Q * E))) (reduce : Rd -> list E -> result (list E)) (group_proba : G -> list (E * Q) -> list (list Q)) h texts contexts b,
  h_cal h <> None -> hm_predict_proba score reduce group_proba h texts contexts b false = rmap (map fst) (compute_scores score texts contexts b).
Proof. exact (@uncalibrated'). Qed.
Print Assumptions C101_uncalibrated.
Theorem C101_unit : forall Rd G E T C (score : list T -> list C -> result (list (Q * E))) (reduce : Rd -> list E -> result (list E)) (group_proba : G -> list (E * Q) -> list (list Q)) h texts contexts b c out,
    (forall ts cs r, score ts cs = Ok r -> Forall (fun p => unit_q (fst p)) r) ->
  (forall r es es', reduce r es = Ok es' -> length es' = length es) -> (forall g es, length (group_proba g es) = length es) ->
  hm_predict_proba score reduce group_proba h texts contexts b c = Ok out -> Forall unit_q out /\ exists se, compute_scores score texts contexts b = Ok se /\ length out = length se.
Proof. exact (@proba_unit'). Qed.
Print Assumptions C101_unit.
Example C101_case_unit : let score := fun (ts : list nat) (cs : list nat) => if (length ts =? length cs)%nat then Ok (map (fun t => (if (t <? 10)%nat then (1 # 4)%Q else 1%Q, t)) ts) else Err ValueError in
  (forall ts cs r, score ts cs = Ok r -> Forall (fun p => unit_q (fst p)) r) /\ (forall (r : unit) (es es' : list nat), Ok (rev es) = Ok es' -> length es' = length es).
Proof.
  cbn zeta. split; [|intros _ es es' E; injection E as <-; apply rev_length]. intros ts cs r E. destruct (length ts =? length cs)%nat; [|discriminate]. injection E as <-.
  apply Forall_forall. intros p P. apply in_map_iff in P as (t & <- & _). cbv beta. unfold unit_q. destruct (t <? 10)%nat; unfold fst; split; vm_compute; discriminate.
Qed.
Theorem C101_pointwise : forall Rd G E T C (score : list T -> list C -> result (list (Q * E))) (reduce : Rd -> list E -> result (list E)) (group_proba : G -> list (E * Q) -> list (list Q)) h texts contexts b b' c i t x (f : T -> C -> Q * E) (r : Rd -> E -> E) (g : G -> E * Q -> list Q),
    (forall ts cs, length ts = length cs -> score ts cs = Ok (map (fun p => f (fst p) (snd p)) (combine ts cs))) ->
  (forall rd es, reduce rd es = Ok (map (r rd) es)) -> (forall gr es, group_proba gr es = map (g gr) es) ->
  (1 <= b)%nat -> (1 <= b')%nat -> length texts = length contexts -> nth_error texts i = Some t -> nth_error contexts i = Some x ->
  match hm_predict_proba score reduce group_proba h texts contexts b c, hm_predict_proba score reduce group_proba h [t] [x] b' c with
  | Ok out, Ok out1 => exists p, nth_error out i = Some p /\ out1 = [p]
  | Err e, Err e' => e = e'
  | _, _ => False
  end.
Proof. exact (@proba_pointwise'). Qed.
Print Assumptions C101_pointwise.
Theorem C101_fit_then_predict : forall Rd G E T C (score : list T -> list C -> result (list (Q * E))) (reduce_fit : Rd -> list E -> result (Rd * list E)) (reduce : Rd -> list E -> result (list E)) (group_fit : list (E * Q) -> result G) (group_proba : G -> list (E * Q) -> list (list Q)) (clusters : G -> nat) (cfg : config) (calibrate : list Q -> list Z -> list (list bool) -> result (list (key * Q))) h texts contexts targets b t h' se red emb,
    hm_fit score reduce_fit group_fit group_proba clusters cfg calibrate h texts contexts targets b t = (h', Ok tt) -> compute_scores score texts contexts b = Ok se ->
  reduce_fit (h_red h) (map snd se) = Ok (red, emb) -> reduce red (map snd se) = Ok emb ->
  exists groups patches, calibrate (map fst se) targets groups = Ok patches /\
    (forall row, In row groups -> last row false = true) /\
    (exists g, group_fit (combine emb (map fst se)) = Ok g /\
       groups = get_groups (compute_quantile (clusters g) (group_proba g (combine emb (map fst se))) t) (group_proba g (combine emb (map fst se)))) /\
    hm_predict_proba score reduce group_proba h' texts contexts b true = Ok (apply_patches multicalibrator cfg patches groups (map fst se)) /\
    hm_predict_proba score reduce group_proba h' texts contexts b false = Ok (map fst se).
Proof. exact (@fit_then_predict'). Qed.
Print Assumptions C101_fit_then_predict.
Theorem C101_failed_fit : forall Rd G E T C (score : list T -> list C -> result (list (Q * E))) (reduce_fit : Rd -> list E -> result (Rd * list E)) (group_fit : list (E * Q) -> result G) (group_proba : G -> list (E * Q) -> list (list Q)) (clusters : G -> nat) (cfg : config) (calibrate : list Q -> list Z -> list (list bool) -> result (list (key * Q))) h texts contexts targets b t h' e,
  hm_fit score reduce_fit group_fit group_proba clusters cfg calibrate h texts contexts targets b t = (h', Err e) -> h_cal h' = h_cal h \/ h_cal h' = Some (cfg, []).
Proof. exact (@failed_fit'). Qed.
Print Assumptions C101_failed_fit.
Theorem C101_failed_calibration : forall Rd G E T C (score : list T -> list C -> result (list (Q * E))) (reduce_fit : Rd -> list E -> result (Rd * list E)) (reduce : Rd -> list E -> result (list E)) (group_fit : list (E * Q) -> result G) (group_proba : G -> list (E * Q) -> list (list Q)) (clusters : G -> nat) (cfg : config) (calibrate : list Q -> list Z -> list (list bool) -> result (list (key * Q))) h texts contexts targets b t se red emb g,
  compute_scores score texts contexts b = Ok se -> reduce_fit (h_red h) (map snd se) = Ok (red, emb) ->
  group_fit (combine emb (map fst se)) = Ok g -> 0 <= t -> t <= 1 -> (forall y, In y targets -> y = 1%Z) ->
  exists h', hm_fit score reduce_fit group_fit group_proba clusters cfg calibrate h texts contexts targets b t = (h', Err ValueError) /\
    forall texts' contexts' b' se', compute_scores score texts' contexts' b' = Ok se' -> (exists emb', reduce red (map snd se') = Ok emb') ->
      hm_predict_proba score reduce group_proba h' texts' contexts' b' true = Ok (map fst se').
Proof. exact (@failed_calibration'). Qed.
Print Assumptions C101_failed_calibration.
Theorem C101_save_load : forall Rd G  (h h0 : hobject Rd G),
  hm_load (hm_save h) h0 = h.
Proof. exact (@save_load'). Qed.
Print Assumptions C101_save_load.
Theorem C101_loaded_predicts : forall Rd G E T C (score : list T -> list C -> result (list (Q * E))) (reduce : Rd -> list E -> result (list E)) (group_proba : G -> list (E * Q) -> list (list Q)) h h0 texts contexts b c,
  hm_predict_proba score reduce group_proba (hm_load (hm_save h) h0) texts contexts b c = hm_predict_proba score reduce group_proba h texts contexts b c.
Proof. exact (@loaded_predicts'). Qed.
Print Assumptions C101_loaded_predicts.
Example C101_case : red (toy_predict_proba toy_fitted [10; 60; 90]%nat [1; 2; 3]%nat 2 true) = Ok [1 # 10; 2 # 5; 7 # 10].
Proof. vm_compute. reflexivity. Qed.
Example C101_case_labels : toy_predict toy_fitted [10; 60; 90]%nat [1; 2; 3]%nat 2 true None = Ok [0; 0; 1]%nat.
Proof. vm_compute. reflexivity. Qed.
Example C101_case_failed : red (toy_predict_proba toy_failed [10; 60; 90]%nat [1; 2; 3]%nat 2 true) = Ok [1 # 10; 3 # 5; 9 # 10].
Proof. vm_compute. reflexivity. Qed.

(** C102: string cleaning *)
Theorem C102_content : forall text, same_content text (string_cleaner text).
Proof. exact (@content). Qed.
Print Assumptions C102_content.
Theorem C102_ends : forall text, trimmed (string_cleaner text).
Proof. exact (@ends). Qed.
Print Assumptions C102_ends.
Theorem C102_capitals : forall text c r, ~ In "!"%char text -> string_cleaner text = c :: r -> forall x, In x r -> ~ upper x.
Proof. exact (@capitals). Qed.
Print Assumptions C102_capitals.
Theorem C102_first : forall text c r, string_cleaner text = c :: r -> ~ (97 <= nat_of_ascii c <= 122)%nat.
Proof. exact first_character. Qed.
Print Assumptions C102_first.
Theorem C102_after_sentence : forall text a c x b, string_cleaner text = a ++ c :: x :: b -> In c ["."; "?"; "!"]%char -> space x \/ In x ["?"; "!"; "'"]%char.
Proof. exact (@after_sentence). Qed.
Print Assumptions C102_after_sentence.
Theorem C102_not_idempotent_refuted : exists t, string_cleaner (string_cleaner t) <> string_cleaner t.
Proof. exact (@not_idempotent). Qed.
Print Assumptions C102_not_idempotent_refuted.
Theorem C102_space_before_punctuation_refuted : exists t a b, string_cleaner t = a ++ [" "; ","; " "]%char ++ b.
Proof. exact (@space_before_punctuation). Qed.
Print Assumptions C102_space_before_punctuation_refuted.
Theorem C102_capitalization_refuted : exists t a x b, string_cleaner t = a ++ ["."; " "]%char ++ x :: b /\ (97 <= nat_of_ascii x <= 122)%nat.
Proof. exact (@no_capital_refuted). Qed.
Print Assumptions C102_capitalization_refuted.
Example C102_case : text (string_cleaner (chars "  hello world . WHAT ? don ' t panic ! ok")) = "Hello world. what? don't panic! Ok"%string.
Proof. vm_compute. reflexivity. Qed.
Example C102_case_number : string_cleaner (chars "3.14") = chars "3. 14".
Proof. exact number_split. Qed.
