(** Proofs for FlowModel.v: the loss of a flow, whole runs. *)
From Coq Require Import List Arith ZArith QArith Bool String Lia.
From Verif Require Import Lib NestedModel FlatModel QuantModel PredModel LikModel CalibModel TrainModel TrainSpec TrainProofs4 DescModel DescSpec DescProofs DescProofs2 CalRunProofs2 FlowModel FlowSpec.
Import ListNotations.
Open Scope list_scope.
Local Notation length := List.length.

Lemma forward_placed : forall ex lb m s z, FlatModel.forward (flow_entry ex) m s (map (fun z => (ex lb * z)%Q) z) = placed ex lb m s z.
Proof.
  intros ex lb m s z. unfold FlatModel.forward, placed. revert z. generalize (combine m s) as l. clear. induction l as [|[a b] l IH]; intros [|z r]; cbn; try reflexivity. now rewrite IH.
Qed.
Lemma map_const_repeat : forall A B (c : B) (l : list A), map (fun _ => c) l = repeat c (length l).
Proof. intros A B c l. induction l as [|a l IH]; cbn; [reflexivity|now rewrite IH]. Qed.

Section Loss.
Variables P M X T O K : Type.
Variable ex : Q -> Q.
Variable split : K -> K * K.
Variable normal : K -> nat -> nat -> list (list Q).
Variable C : Type.
Variable net : P -> option K -> bool -> option M -> X -> O * M.
Variable log_prior : P -> Q.
Variable calibrator : option (bool -> option C -> O -> O * C).
Variable calib_mutable : option (option C).
Variable log_prob : O -> list T -> list Q.
Variable unravel : list Q -> P.
Variable lb : Q.
Variables d n_samples : nat.
Definition outputs (key : K) train p m x := let o := fst (net p (Some key) train m x) in
  match calibrator with None => o | Some f => fst (f false (match calib_mutable with Some c => c | None => None end) o) end.
Definition nlj n o (ys : list T) p := (- (total_of (log_prob o ys) * (inject_Z (Z.of_nat n) / inject_Z (Z.of_nat (length ys))) + log_prior p))%Q.
Definition draws key f := map (fun z => unravel (placed ex lb (fl_mean f) (fl_log_std f) z)) (normal (snd (split (snd (split key)))) n_samples d).
Definition objective n train key f m (b : X * list T) :=
  (average_of (map (fun p => nlj n (outputs (fst (split key)) train p m (fst b)) (snd b) p) (draws key f)) - average_of (map (fun _ => total_of (fl_log_std f)) (draws key f)))%Q.
Definition change key f (m : option M) (b : X * list T) : option M :=
  match m with
  | Some _ => option_map (fun p => snd (net p (Some (fst (split key))) true m (fst b))) (nth_error (draws key f) (n_samples - 1))
  | None => None
  end.
Definition answer_of n train (m : option M) (b : X * list T) key p : answer M O :=
  {| an_loss := nlj n (outputs key train p m (fst b)) (snd b) p; an_outputs := Some (outputs key train p m (fst b));
     an_mutable := match m with Some _ => if train : bool then Some (snd (net p (Some key) true m (fst b))) else None | None => None end |}.
Lemma inner_loss : forall n (train : bool) (b : X * list T) m key p,
  map_loss P M X T O K net log_prior calibrator calib_mutable log_prob p b n m
    (["outputs"%string] ++ match m with Some _ => if train then ["mutable"%string] else [] | None => [] end) train (Some key) = Ok (answer_of n train m b key p).
Proof.
  intros n train [x ys] m key p. destruct m as [m|], train, calibrator as [f|] eqn:E, calib_mutable as [[c|]|] eqn:E2; unfold answer_of, outputs, nlj; rewrite ?E, ?E2; reflexivity.
Qed.
Lemma all_outputs_ok : forall n train m b key l, all_outputs M O (map (answer_of n train m b key) l) = Some (map (fun p => outputs key train p m (fst b)) l).
Proof. intros n train m b key l. induction l as [|p l IH]; cbn; [reflexivity|]. unfold all_outputs in IH. rewrite IH. reflexivity. Qed.
Lemma last_ok : forall n m b key l k, length l = k ->
  last_mutable M O (map (answer_of n true m b key) l) = match m with Some _ => option_map (fun p => snd (net p (Some key) true m (fst b))) (nth_error l (k - 1)) | None => None end.
Proof.
  intros n m b key l k <-. unfold last_mutable. rewrite <- map_rev. destruct (rev l) as [|p r] eqn:E.
  - apply (f_equal (@rev P)) in E. rewrite rev_involutive in E. subst l. cbn. destruct m; reflexivity.
  - apply (f_equal (@rev P)) in E. rewrite rev_involutive in E. subst l. cbn [rev map]. rewrite app_length. cbn [length]. replace (length (rev r) + 1 - 1)%nat with (length (rev r)) by lia.
    rewrite nth_error_app2 by lia. rewrite Nat.sub_diag. destruct m; reflexivity.
Qed.
Lemma loss_ok : forall n (train : bool) run_key f (b : X * list T) m key, (forall key, length (normal key n_samples d) = n_samples) ->
  exists mu, flow_loss P M X T O K ex split normal lb d n_samples unravel (map_loss P M X T O K net log_prior calibrator calib_mutable log_prob) run_key f b n m
    (["outputs"%string] ++ match m with Some _ => if train then ["mutable"%string] else [] | None => [] end) train key
  = let k := match key with Some k => k | None => run_key end in
    Ok {| an_loss := objective n train k f m b; an_outputs := Some (map (fun p => outputs (fst (split k)) train p m (fst b)) (draws k f));
          an_mutable := if train then change k f m b else mu |}.
Proof.
  intros n train run_key f b m key HN. unfold flow_loss. set (k := match key with Some k => k | None => run_key end). cbv zeta.
  destruct (split k) as [rng key2] eqn:ES. unfold flow_forward, base_sample. cbv beta iota.
  rewrite map_map. erewrite map_ext by (intros z; apply forward_placed).
  set (zs := normal (snd (split key2)) n_samples d).
  assert (DR : draws k f = map unravel (map (placed ex lb (fl_mean f) (fl_log_std f)) zs)) by (unfold draws; rewrite ES, map_map; reflexivity).
  rewrite (mapM_total _ _ _ (fun v => answer_of n train m b rng (unravel v))) by (intros v; apply inner_loss). cbn [bind].
  match goal with |- context [map (fun v => answer_of n train m b rng (unravel v)) ?l] => replace (map (fun v => answer_of n train m b rng (unravel v)) l) with (map (answer_of n train m b rng) (draws k f)) by (rewrite DR, !map_map; reflexivity) end.
  exists (last_mutable M O (map (answer_of n train m b rng) (draws k f))).
  f_equal. rewrite all_outputs_ok. cbn [fst].
  assert (LM : (if train then change k f m b else last_mutable M O (map (answer_of n train m b rng) (draws k f))) = last_mutable M O (map (answer_of n train m b rng) (draws k f))).
  { destruct train; [|reflexivity]. rewrite (last_ok n m b rng (draws k f) n_samples) by (unfold draws; rewrite map_length; apply HN). unfold change. rewrite ES. reflexivity. }
  rewrite LM. f_equal. unfold objective. rewrite ES. cbn [fst]. unfold mean_Q, average_of. rewrite !map_map, !map_length. cbn [an_loss answer_of].
  rewrite map_const_repeat, repeat_length.
  assert (LD : length (draws k f) = length zs) by (rewrite DR, !map_length; reflexivity). rewrite LD. reflexivity.
Qed.
End Loss.
