(** Proofs about the log joint probability and model managers. *)
From Coq Require Import List Arith ZArith QArith Bool Lia Lqa String.
From Verif Require Import Lib QuantModel QuantProofs ConfRegModel ConfClassModel ConfClassProofs2 MetricSpec MetricProofs PredSpec PredProofs3 LikModel LikSpec.
Import ListNotations.
Local Notation length := List.length.
Local Notation concat := List.concat.
Open Scope Q_scope.

Lemma in_aux_iff s l : in_aux s l = true <-> In s l.
Proof. unfold in_aux. rewrite existsb_exists. split. intros (x & H & E). apply String.eqb_eq in E. now subst. intros H. exists s. split; [exact H|apply String.eqb_refl]. Qed.
Lemma supported_iff s : supported s = true <-> (s = "outputs" \/ s = "mutable" \/ s = "calib_mutable")%string.
Proof. unfold supported. rewrite in_aux_iff. cbn [In]. intuition. Qed.
Lemma unsupported_none l : (length (filter (fun s => negb (supported s)) l) =? 0)%nat = true <-> forall s, In s l -> (s = "outputs" \/ s = "mutable" \/ s = "calib_mutable")%string.
Proof.
  rewrite Nat.eqb_eq, length_zero_iff_nil. split.
  - intros H s Hs. apply supported_iff. destruct (supported s) eqn:E; [reflexivity|]. assert (X : In s (filter (fun s => negb (supported s)) l)) by (apply filter_In; rewrite E; auto). rewrite H in X. destruct X.
  - intros H. induction l as [|s l IH]; [reflexivity|]. cbn [filter]. assert (E : supported s = true) by (apply supported_iff, H; now left). rewrite E. cbn [negb]. apply IH. intros x Hx. apply H. now right.
Qed.
Theorem lik_checks_iff : forall return_aux train og mg, lik_checks return_aux train og mg = Ok tt <-> consistent_request return_aux train og mg.
Proof.
  intros l train og mg. unfold lik_checks, consistent_request. rewrite <- unsupported_none. rewrite <- (in_aux_iff "mutable" l). destruct (length (filter _ l) =? 0)%nat; cbn [negb]; [|split; [discriminate|intros (X & _); discriminate]].
  destruct train, og, mg, (in_aux "mutable" l); cbn [andb negb]; split; intros X; try discriminate; try reflexivity; try (exfalso; intuition congruence); intuition congruence.
Qed.
Theorem lik_checks_errors : forall return_aux train og mg e, lik_checks return_aux train og mg = Err e ->
  e = ValueError \/ (e = TypeError /\ exists s, In s return_aux /\ ~ (s = "outputs" \/ s = "mutable" \/ s = "calib_mutable")%string).
Proof.
  intros l train og mg e. unfold lik_checks. destruct (length (filter (fun s => negb (supported s)) l) =? 0)%nat eqn:E; cbn [negb].
  - intros H. left. destruct train, og, mg, (in_aux "mutable" l); cbn [andb negb] in H; congruence.
  - intros H. right. injection H as <-. split; [reflexivity|]. destruct (filter (fun s => negb (supported s)) l) as [|s r] eqn:F; [discriminate|]. assert (X : In s (filter (fun s => negb (supported s)) l)) by (rewrite F; now left). apply filter_In in X. exists s. split; [tauto|]. rewrite <- supported_iff. destruct (supported s); [destruct X; discriminate|discriminate].
Qed.

(** ---- the value ---- *)
Section Value.
Context {O M C T : Type} (apply : bool -> option M -> pyout O M) (manager : option (option (bool -> option C -> O -> O * C)))
  (log_prob : O -> list T -> list Q) (targets : list T) (n_data : nat).
Lemma lik_value_aux mutable cp cm return_aux train outputs v aux :
  lik_log_joint apply manager log_prob targets n_data mutable cp cm return_aux train outputs = Ok (v, aux) ->
  exists o, (outputs = Some o \/ (outputs = None /\ (apply train mutable = Arr o \/ exists m, apply train mutable = Tup o m))) /\
    v == scaled_sum n_data (length targets) (log_prob (match manager with Some (Some f) => fst (f (in_aux "calib_mutable" return_aux) (match cm with Some c => c | None => None end) o) | _ => o end) targets).
Proof.
  unfold lik_log_joint. destruct (lik_checks _ _ _ _) as [[]|e]; cbn [bind]; [|discriminate].
  assert (Fin : forall o' a, Ok (qsum (log_prob o' targets) * (inject_Z (Z.of_nat n_data) / inject_Z (Z.of_nat (length targets))), a) = Ok (v, aux) -> v == scaled_sum n_data (length targets) (log_prob o' targets)).
  { intros o' a H. assert (E : qsum (log_prob o' targets) * (inject_Z (Z.of_nat n_data) / inject_Z (Z.of_nat (length targets))) = v) by congruence. rewrite <- E. unfold scaled_sum, Qdiv. change qsum with total. unfold nQ. ring. }
  set (calib_m := match cm with Some c => c | None => None end).
  assert (Rest : forall o outs mut', (outs = None \/ exists x, outs = Some x /\ x = apply train mutable) -> (outs = None -> outputs = Some o) -> (forall x, outs = Some x -> outputs = None /\ (apply train mutable = Arr o \/ exists m, apply train mutable = Tup o m)) ->
     bind (match manager with
      | Some calibrator => bind (calib_apply calibrator cp calib_m (in_aux "calib_mutable" return_aux) o) (fun r =>
          match calib_m, in_aux "calib_mutable" return_aux, r with
          | Some _, true, Tup o' c => Ok (o', Some (Some c))
          | Some _, true, Arr _ => Err ValueError
          | _, _, Arr o' => Ok (o', if in_aux "calib_mutable" return_aux then Some None else None)
          | _, _, Tup _ _ => Err TypeError
          end)
      | None => match outs with
         | None => Err UnboundLocalErr
         | Some (Arr o') => match calib_m, in_aux "calib_mutable" return_aux with Some _, true => Err RuntimeError | _, _ => Ok (o', if in_aux "calib_mutable" return_aux then Some None else None) end
         | Some (Tup _ _) => Err TypeError end
      end) (fun '(o', aux_c) => Ok (qsum (log_prob o' targets) * (inject_Z (Z.of_nat n_data) / inject_Z (Z.of_nat (length targets))), if (length return_aux =? 0)%nat then None else Some {| aux_outputs := if in_aux "outputs" return_aux then Some o' else None; aux_mutable := if in_aux "mutable" return_aux then Some mut' else None; aux_calib := aux_c |})) = Ok (v, aux) ->
     v == scaled_sum n_data (length targets) (log_prob (match manager with Some (Some f) => fst (f (in_aux "calib_mutable" return_aux) calib_m o) | _ => o end) targets)).
  { intros o outs mut' H1 H2 H3. destruct manager as [[f|]|]; cbn [calib_apply].
    - destruct cp; cbn [negb bind]; [|discriminate]. destruct calib_m as [c|], (in_aux "calib_mutable" return_aux); cbn [bind]; apply Fin.
    - cbn [bind]. destruct calib_m as [c|], (in_aux "calib_mutable" return_aux); cbn [bind]; try discriminate; apply Fin.
    - destruct outs as [[o'|o' m]|]; cbn [bind]; try discriminate. destruct (H3 _ eq_refl) as [_ D]. destruct H1 as [H1|(x & E1 & E2)]; [discriminate|]. injection E1 as <-. assert (o' = o). { destruct D as [D|[m D]]; congruence. } subst o'.
      destruct calib_m as [c|], (in_aux "calib_mutable" return_aux); cbn [bind]; try discriminate; apply Fin. }
  destruct outputs as [o|]; cbn [bind].
  - intros H. exists o. split; [now left|]. refine (Rest o None mutable _ _ _ H); auto. intros x X. discriminate.
  - destruct (in_aux "mutable" return_aux) eqn:W; destruct (apply train mutable) as [o|o m] eqn:A; cbn [bind]; try discriminate; intros H; exists o; (split; [right; split; [reflexivity|]; eauto|]).
    + refine (Rest o (Some (Tup o m)) (Some m) _ _ _ H); eauto; try discriminate; intros x X; split; eauto.
    + refine (Rest o (Some (Arr o)) mutable _ _ _ H); eauto; try discriminate; intros x X; split; eauto.
Qed.
End Value.
Theorem lik_value : forall (O M C T : Type) (apply : bool -> option M -> pyout O M) manager log_prob (targets : list T) n_data mutable cp (cm : option (option C)) return_aux train outputs v aux,
  lik_log_joint apply manager log_prob targets n_data mutable cp cm return_aux train outputs = Ok (v, aux) ->
  exists o, (outputs = Some o \/ (outputs = None /\ (apply train mutable = Arr o \/ exists m, apply train mutable = Tup o m))) /\
    v == scaled_sum n_data (length targets) (log_prob (match manager with Some (Some f) => fst (f (in_aux "calib_mutable" return_aux) (match cm with Some c => c | None => None end) o) | _ => o end) targets).
Proof. intros *. apply lik_value_aux. Qed.
Lemma lik_rejects (O M C T : Type) (apply : bool -> option M -> pyout O M) manager log_prob (targets : list T) n_data mutable cp (cm : option (option C)) return_aux train outputs :
  ~ consistent_request return_aux train (match outputs with Some _ => true | None => false end) (match mutable with Some _ => true | None => false end) ->
  exists e, lik_log_joint apply manager log_prob targets n_data mutable cp cm return_aux train outputs = Err e.
Proof.
  intros H. unfold lik_log_joint. destruct (lik_checks _ _ _ _) as [[]|e] eqn:E; [|cbn [bind]; eauto]. apply lik_checks_iff in E. contradiction.
Qed.
Theorem lik_inconsistent : forall (O M C T : Type) (apply : bool -> option M -> pyout O M) manager log_prob (targets : list T) n_data mutable cp (cm : option (option C)) return_aux train outputs v aux,
  lik_log_joint apply manager log_prob targets n_data mutable cp cm return_aux train outputs = Ok (v, aux) ->
  consistent_request return_aux train (match outputs with Some _ => true | None => false end) (match mutable with Some _ => true | None => false end).
Proof.
  intros *. unfold lik_log_joint. destruct (lik_checks _ _ _ _) as [[]|e] eqn:E; cbn [bind]; [|discriminate]. intros _. now apply lik_checks_iff.
Qed.
(** training returns the mutable variables of the forward pass *)
Theorem lik_updated_mutable : forall (X O M C T : Type) (net : bool -> option M -> X -> O * M) x (manager : option (bool -> option C -> O -> O * C)) log_prob (targets : list T) n_data m,
  exists v aux, lik_log_joint (fun train mutable => class_apply net train mutable x) (Some manager) log_prob targets n_data (Some m) true None ["mutable"%string] true None = Ok (v, Some aux) /\
    aux_mutable aux = Some (Some (snd (net true (Some m) x))) /\ aux_outputs aux = None /\ aux_calib aux = None.
Proof.
  intros. unfold lik_log_joint. cbn. destruct manager as [f|]; cbn; do 2 eexists; split; try reflexivity; cbn; auto.
Qed.
(** evaluation leaves mutable variables out *)
Theorem lik_evaluation : forall (X O M C T : Type) (net : bool -> option M -> X -> O * M) x (manager : option (bool -> option C -> O -> O * C)) log_prob (targets : list T) n_data m,
  exists v, lik_log_joint (fun train mutable => class_apply net train mutable x) (Some manager) log_prob targets n_data m true None [] false None = Ok (v, None).
Proof. intros. unfold lik_log_joint. destruct m; cbn; destruct manager as [f|]; cbn; eauto. Qed.
(** without a calibration manager *)
Theorem lik_no_manager_refuted : forall (X O M C T : Type) (net : bool -> option M -> X -> O * M) x (log_prob : O -> list T -> list Q) (targets : list T) n_data m o,
  lik_log_joint (C := C) (fun train mutable => class_apply net train mutable x) None log_prob targets n_data (Some m) true None ["mutable"%string] true None = Err TypeError /\
  lik_log_joint (C := C) (fun train mutable => class_apply net train mutable x) None log_prob targets n_data None true None [] false (Some o) = Err UnboundLocalErr.
Proof. intros. split; reflexivity. Qed.

(** ---- unbiasedness over an epoch ---- *)
Lemma total_app a b : total (a ++ b) == total a + total b.
Proof. induction a as [|x a IH]; cbn [app]. change (total []) with 0. lra. change (x + total (a ++ b) == x + total a + total b). rewrite IH. lra. Qed.
Lemma total_concat ls : total (concat ls) == total (map total ls).
Proof. induction ls as [|l ls IH]; cbn [concat map]. reflexivity. rewrite total_app, IH. reflexivity. Qed.
Lemma scaled_total n b ls : (0 < b)%nat -> total (map (scaled_sum n b) ls) == total (map total ls) * nQ n / nQ b.
Proof.
  intros H. assert (P := nQ_pos b H). induction ls as [|l ls IH]; cbn [map]. change (total []) with 0. field. lra. change (scaled_sum n b l + total (map (scaled_sum n b) ls) == (total l + total (map total ls)) * nQ n / nQ b). rewrite IH. unfold scaled_sum. field. lra.
Qed.
Lemma nQ_mult a b : nQ (a * b) == nQ a * nQ b.
Proof. unfold nQ. rewrite Nat2Z.inj_mul, inject_Z_mult. reflexivity. Qed.
Lemma concat_length_eq {A} b (ls : list (list A)) : (forall l, In l ls -> length l = b) -> length (concat ls) = (length ls * b)%nat.
Proof. intros H. induction ls as [|l ls IH]; [reflexivity|]. cbn [concat length]. rewrite app_length, (H l (or_introl eq_refl)), IH. lia. intros x Hx. apply H. now right. Qed.
Theorem lik_unbiased : forall (X T O : Type) (predict : list X -> list O) (score : O -> T -> Q) (batches : list (list (X * T))) b,
  (forall xs, length (predict xs) = length xs) -> (0 < b)%nat -> batches <> [] -> (forall l, In l batches -> length l = b) ->
  exists values, Forall2 (fun batch v => exists w, lik_log_joint (M := unit) (C := unit) (fun _ _ => Arr (predict (map fst batch))) (Some None) (fun os ts => zip_with score os ts) (map snd batch) (length (concat batches)) None true None [] false None = Ok (w, None) /\ w == v) batches values /\
    total values / nQ (length batches) == total (concat (map (fun batch => zip_with score (predict (map fst batch)) (map snd batch)) batches)).
Proof.
  intros X T O predict score batches b LP B NE L. set (n := length (concat batches)). set (ll := fun batch : list (X * T) => zip_with score (predict (map fst batch)) (map snd batch)).
  exists (map (scaled_sum n b) (map ll batches)). split.
  - clear NE. generalize n. clear n. intros n. induction batches as [|l batches IH]; cbn [map]; constructor.
    + eexists. split. reflexivity. rewrite map_length, (L l (or_introl eq_refl)). unfold scaled_sum. change qsum with total. unfold Qdiv, nQ, ll. ring.
    + apply IH. intros x Hx. apply L. now right.
  - rewrite scaled_total by exact B. rewrite total_concat. assert (N : n = (length batches * b)%nat) by (apply concat_length_eq; exact L). rewrite N, nQ_mult. assert (P := nQ_pos b B). assert (P2 : 0 < nQ (length batches)). { apply nQ_pos. destruct batches; [congruence|cbn; lia]. } field. split; lra.
Qed.
(** a smaller last batch makes the average over the epoch differ from the full-data value *)
Theorem lik_biased_refuted : exists (batches : list (list Q)), (forall l, In l batches -> l <> []) /\
  ~ total (map (fun l => scaled_sum (length (concat batches)) (length l) l) batches) / nQ (length batches) == total (concat batches).
Proof. exists [[0; 0]; [1]]. split. intros l [<-|[<-|[]]]; discriminate. vm_compute. discriminate. Qed.

(** ---- joint ---- *)
Theorem joint_sum : forall (A : Type) log_prior (lik : list string -> result (Q * option A)) l v aux, lik l = Ok (v, aux) ->
  joint_log_prob log_prior lik (Some l) = Ok (v + log_prior, aux) /\ joint_neg_log_prob log_prior lik (Some l) = Ok (- (v + log_prior), aux).
Proof. intros A lp lik l v aux H. unfold joint_neg_log_prob, joint_log_prob. rewrite H. split; reflexivity. Qed.
Theorem joint_neg_default : forall (A : Type) log_prior (lik : list string -> result (Q * option A)) r, joint_neg_log_prob log_prior lik None <> Ok r.
Proof. intros A lp lik r. unfold joint_neg_log_prob, joint_log_prob. destruct (lik []) as [[v a]|e]; discriminate. Qed.
Theorem joint_error : forall (A : Type) log_prior (lik : list string -> result (Q * option A)) l e, lik l = Err e -> joint_log_prob log_prior lik (Some l) = Err e.
Proof. intros A lp lik l e H. unfold joint_log_prob. now rewrite H. Qed.

(** ---- model managers ---- *)
Theorem class_apply_aux : forall (X O M : Type) (net : bool -> option M -> X -> O * M) train mutable x,
  match class_apply net train mutable x with
  | Tup o m => train = true /\ (exists m0, mutable = Some m0) /\ (o, m) = net true mutable x
  | Arr o => (train = false \/ mutable = None) /\ o = fst (net train mutable x)
  end.
Proof.
  intros X O M net train mutable x. unfold class_apply. destruct train, mutable as [m|]; cbn [andb fst]; try (split; [auto|reflexivity]). split; [reflexivity|]. split; [eauto|]. now destruct (net true (Some m) x).
Qed.
Theorem reg_apply_rows : forall (X M : Type) (net var : bool -> option M -> X -> list (list Q) * M) train frozen x,
  let ms := fst (net train None x) in let vs := fst (var train None x) in length ms = length vs ->
  ((forall i, (i < length ms)%nat -> length (nth i ms []) = length (nth i vs [])) ->
   exists rows, reg_apply net var train frozen None x = Ok (Arr rows) /\ length rows = length ms /\
     forall i, (i < length ms)%nat -> let row := nth i rows [] in firstn (length row / 2) row = nth i ms [] /\ skipn (length row / 2) row = nth i vs []) /\
  ((exists i, (i < length ms)%nat /\ length (nth i ms []) <> length (nth i vs [])) -> reg_apply net var train frozen None x = Err ValueError).
Proof.
  intros X M net var train frozen x. cbn zeta. unfold reg_apply. cbn [bind]. generalize (fst (net train None x)) as ms, (fst (var train None x)) as vs. intros ms vs L. split.
  - intros H. assert (E : existsb (fun p : list Q * list Q => negb (length (fst p) =? length (snd p))%nat) (combine ms vs) = false).
    { revert vs L H. induction ms as [|a ms IH]; intros [|b vs] L H; try discriminate; [reflexivity|]. cbn [combine existsb fst snd]. assert (X0 := H 0%nat ltac:(cbn; lia)). cbn [nth] in X0. rewrite X0, Nat.eqb_refl. cbn [negb orb]. apply IH. now injection L. intros i Hi. apply (H (S i)). cbn. lia. }
    rewrite E. eexists. split; [reflexivity|]. split; [rewrite map_length, combine_length; lia|]. intros i Hi. cbn zeta.
    assert (N : nth i (map (fun p : list Q * list Q => fst p ++ snd p) (combine ms vs)) [] = nth i ms [] ++ nth i vs []).
    { change [] with ((fun p : list Q * list Q => fst p ++ snd p) ([], [])) at 1. rewrite map_nth, combine_nth by exact L. reflexivity. }
    rewrite N, app_length, <- (H i Hi). replace (length (nth i ms []) + length (nth i ms []))%nat with (length (nth i ms []) * 2)%nat by lia. rewrite Nat.div_mul by lia. split.
    + rewrite firstn_app, Nat.sub_diag, firstn_all. cbn [firstn]. apply app_nil_r.
    + rewrite skipn_app, Nat.sub_diag, skipn_all. reflexivity.
  - intros (i & Hi & D). assert (E : existsb (fun p : list Q * list Q => negb (length (fst p) =? length (snd p))%nat) (combine ms vs) = true).
    { apply existsb_exists. exists (nth i ms [], nth i vs []). split. rewrite <- combine_nth by exact L. apply nth_In. rewrite combine_length. lia. cbn [fst snd]. destruct (Nat.eqb_spec (length (nth i ms [])) (length (nth i vs []))); [contradiction|reflexivity]. }
    now rewrite E.
Qed.
(** frozen mutable variables cannot be used at all *)
Theorem reg_frozen_refuted : forall (X M : Type) (net var : bool -> option M -> X -> list (list Q) * M) train m x, reg_apply net var train true (Some m) x = Err ValueError.
Proof. reflexivity. Qed.
(** plain dictionaries: evaluation returns a pair, and training replaces the mutable
    variables of the log-variance model by those of the mean model *)
Theorem reg_mutable_refuted : exists (net var : bool -> option nat -> unit -> list (list Q) * nat) m,
  (exists o a, reg_apply net var false false (Some m) tt = Ok (Tup o a)) /\
  (exists o a, reg_apply net var true false (Some m) tt = Ok (Tup o a) /\ rm_lik_log_var a <> Some (snd (var true (rm_lik_log_var m) tt)) /\ rm_lik_log_var a = Some (snd (net true (rm_model m) tt))).
Proof.
  exists (fun _ _ _ => ([[1]], 7%nat)), (fun _ _ _ => ([[2]], 8%nat)), {| rm_model := Some 1%nat; rm_lik_log_var := Some 2%nat |}. split.
  - do 2 eexists. reflexivity.
  - do 2 eexists. split; [reflexivity|]. cbn. split; [discriminate|reflexivity].
Qed.

(** ---- splitting variables ---- *)
Lemma mapM_params {A} (d : list (string * list (string * A))) ps :
  mapM (fun kv => match find (fun p => String.eqb (fst p) "params") (snd kv) with Some p => Ok (fst kv, snd p) | None => Err KeyError end) d = Ok ps ->
  map fst ps = map fst d /\ forall i k v, nth_error d i = Some (k, v) -> exists p, nth_error ps i = Some (k, p) /\ In ("params"%string, p) v.
Proof.
  revert ps. induction d as [|[k v] d IH]; intros ps H; cbn [mapM] in H.
  - injection H as <-. split; [reflexivity|]. intros [|i]; discriminate.
  - cbn [fst snd] in H. destruct (find _ v) as [[pk p]|] eqn:F; cbn [bind] in H; [|discriminate]. destruct (mapM _ d) as [ps'|] eqn:E; cbn [bind] in H; [|discriminate]. injection H as <-. destruct (IH ps' eq_refl) as [A1 A2]. cbn [map fst]. split; [now rewrite A1|].
    intros [|i] k' v' N; cbn [nth_error] in N |- *. injection N as <- <-. apply find_some in F. destruct F as [F1 F2]. cbn [fst] in F2. apply String.eqb_eq in F2. subst pk. exists p. split; [reflexivity|exact F1]. now apply A2.
Qed.
Theorem split_spec : forall (A : Type) (d : list (string * list (string * A))) params mutable, split_variables d = Ok (params, mutable) ->
  map fst params = map fst d /\
  (forall i k v, nth_error d i = Some (k, v) -> exists p, nth_error params i = Some (k, p) /\ In ("params"%string, p) v) /\
  (forall m, mutable = Some m -> map fst m = map fst d /\ forall i k v, nth_error d i = Some (k, v) -> exists w, nth_error m i = Some (k, w) /\ forall e, In e w <-> In e v /\ fst e <> "params"%string) /\
  (mutable = None <-> forall k v e, In (k, v) d -> In e v -> fst e = "params"%string).
Proof.
  intros A d params mutable H. unfold split_variables in H. destruct (mapM _ d) as [ps|] eqn:E; [|discriminate]. injection H as <- <-. destruct (mapM_params d ps E) as [P1 P2]. split; [exact P1|]. split; [exact P2|].
  set (mut := map (fun kv : string * list (string * A) => (fst kv, filter (fun p => negb (String.eqb (fst p) "params")) (snd kv))) d). split.
  - intros m Hm. destruct (existsb _ mut); [|discriminate]. injection Hm as <-. split. unfold mut. rewrite map_map. reflexivity.
    intros i k v N. unfold mut. rewrite nth_error_map, N. cbn [option_map fst snd]. eexists. split; [reflexivity|]. intros e. rewrite filter_In. destruct (String.eqb_spec (fst e) "params"); cbn [negb]; intuition congruence.
  - destruct (existsb (fun kv : string * list (string * A) => negb (length (snd kv) =? 0)%nat) mut) eqn:X; split; try discriminate; try reflexivity.
    + intros H. exfalso. apply existsb_exists in X. destruct X as ([k w] & I & B). unfold mut in I. apply in_map_iff in I. destruct I as ([k' v] & Q & I). cbn [fst snd] in Q. injection Q as <- <-. cbn [snd] in B.
      destruct (filter (fun p : string * A => negb (String.eqb (fst p) "params")) v) as [|e r] eqn:F; [discriminate|]. assert (G : In e (filter (fun p : string * A => negb (String.eqb (fst p) "params")) v)) by (rewrite F; now left). apply filter_In in G. destruct G as [G1 G2]. rewrite (H k' v e I G1) in G2. discriminate.
    + intros _ k v e I J. destruct (String.eqb_spec (fst e) "params"); [assumption|]. exfalso. assert (Y : existsb (fun kv : string * list (string * A) => negb (length (snd kv) =? 0)%nat) mut = true).
      { apply existsb_exists. exists (k, filter (fun p => negb (String.eqb (fst p) "params")) v). split. unfold mut. apply in_map_iff. exists (k, v). auto. cbn [snd]. assert (G : In e (filter (fun p : string * A => negb (String.eqb (fst p) "params")) v)). { apply filter_In. split; [exact J|]. destruct (String.eqb_spec (fst e) "params"); [contradiction|reflexivity]. } destruct (filter _ v); [destruct G|reflexivity]. }
      congruence.
Qed.
