(** Proofs about the regression check, training and calibration. *)
From Coq Require Import List Arith ZArith QArith Bool String Lia.
From Verif Require Import Lib SchedModel SchedProofs BuildModel BuildSpec BuildProofs BuildProofs2.
Import ListNotations.
Local Notation length := List.length.
Local Notation concat := List.concat.
Open Scope nat_scope.

Theorem class_check_accepts : forall V (net_init : key * key -> list nat -> variables V) calibrator d l g,
  makes_params net_init -> match calibrator with None => True | Some f => makes_params f end -> array_loader l ->
  let r := snd (class_check (class_init net_init) (fun _ _ => Ok (ArrayOut [1; d])) calibrator l g) in
  (r = Ok tt <-> labels_of l <> [] /\ distinct_count (labels_of l) d) /\ (r = Ok tt \/ r = Err ValueError).
Proof.
  intros V net_init calibrator d l g MP MC AL r. destruct (class_check_iff V net_init calibrator d l g MP MC AL) as [E H]. split; [exact H|].
  unfold r; rewrite E. destruct (labels_of l); [now right|]. destruct (_ =? d); [now left|now right].
Qed.
Theorem out_of_range_refuted : forall V (net_init : key * key -> list nat -> variables V) calibrator g,
  makes_params net_init -> match calibrator with None => True | Some f => makes_params f end ->
  exists l, array_loader l /\ In 7%Z (labels_of l) /\
    snd (class_check (class_init net_init) (fun _ _ => Ok (ArrayOut [1; 2])) calibrator l g) = Ok tt.
Proof.
  intros V net_init calibrator g MP MC. exists {| ld_batches := [(TupleShape [2; 3], [0; 7]%Z)]; ld_cached := None |}.
  assert (AL : array_loader {| ld_batches := [(TupleShape [2; 3], [0; 7]%Z)]; ld_cached := None |}).
  { split; [reflexivity|]. intros x y [E|[]]; injection E as <- <-. exists [3]; reflexivity. }
  split; [exact AL|split; [cbn; tauto|]]. now destruct (class_check_iff V net_init calibrator 2 _ g MP MC AL) as [-> _].
Qed.

(** ---- regression ---- *)
Lemma reg_init_state {V} (net_init var_init : key * key -> list nat -> variables V) s k :
  makes_params net_init -> makes_params var_init ->
  exists oms, bind (reg_init net_init var_init (TupleShape s) k) mm_init_from_dict = Ok oms /\
    (ms_mutable oms = None <-> only_params (net_init (fst (reg_rngs k)) (1 :: s)) /\ only_params (var_init (snd (reg_rngs k)) (1 :: s))).
Proof.
  intros MP MV. unfold reg_init; cbn [zeros_shape bind].
  set (v := net_init (fst (reg_rngs k)) (1 :: s)). set (u := var_init (snd (reg_rngs k)) (1 :: s)).
  destruct (MP (fst (reg_rngs k)) (1 :: s)) as [p Hp]. destruct (MV (snd (reg_rngs k)) (1 :: s)) as [q Hq]. fold v in Hp; fold u in Hq.
  assert (X : exists oms, mm_init_from_dict [("model"%string, v); ("lik_log_var"%string, u)] = Ok oms).
  { unfold mm_init_from_dict; cbn [mapM fst snd]. unfold get_or; rewrite Hp; cbn [bind]. rewrite Hq; cbn [bind]. now eexists. }
  destruct X as [oms X]; exists oms; split; [exact X|]. rewrite (mutable_none_iff _ _ _ X). split.
  - intro H; split; [apply (H "model"%string)|apply (H "lik_log_var"%string)]; cbn; tauto.
  - intros [H1 H2] k' v' [E|[E|[]]]; injection E as _ <-; assumption.
Qed.

Lemma ocm_ok {V} (calibrator : option (key * key -> list nat -> variables V)) d k :
  match calibrator with None => True | Some f => makes_params f end ->
  exists o, ocm_init_from_dict [("output_calibrator"%string, ocm_init calibrator d k)] = Ok o.
Proof.
  intro MC; unfold ocm_init; destruct calibrator as [f|]; [|now eexists]. destruct (MC (class_rngs k) [1; d]) as [p Hp].
  unfold ocm_init_from_dict; cbn [mapM fst snd]. destruct (f (class_rngs k) [1; d]) as [|x r]; [discriminate|]. unfold get_or; rewrite Hp; cbn [bind]. now eexists.
Qed.

(** networks without mutable variables, with [a] and [b] outputs *)
Theorem reg_check_accepts : forall V (net_init var_init : key * key -> list nat -> variables V) calibrator a b x y rest g,
  makes_params net_init -> makes_params var_init -> match calibrator with None => True | Some f => makes_params f end ->
  (forall k s, only_params (net_init k s)) -> (forall k s, only_params (var_init k s)) ->
  let r := snd (reg_check (reg_init net_init var_init) (reg_shapes (fun _ => [1; a]) (fun _ => [1; b])) calibrator ((TupleShape x, y) :: rest) g) in
  (r = Ok tt <-> exists n m tail, y = n :: m :: tail /\ 0 < m /\ a = m /\ b = m).
Proof.
  intros V net_init var_init calibrator a b x y rest g MP MV MC ON OV r; unfold r; clear r. unfold reg_check.
  destruct y as [|n [|m tail]]; cbn [second_dim bind].
  1, 2: split; [discriminate|intros [n' [m' [t' [E _]]]]; discriminate].
  destruct (Nat.eqb_spec m 0) as [->|Nm]; [split; [discriminate|intros [n' [m' [t' [E [L _]]]]]; injection E as _ <- _; lia]|].
  unfold joint_init; cbn [rng_get]. destruct (reg_init_state net_init var_init (tl x) (Child g 0) MP MV) as [oms [HO HM]].
  assert (M : ms_mutable oms = None) by (apply HM; split; [apply ON|apply OV]).
  rewrite HO; cbn [bind get_inputs_from_shape]. assert (HS : reg_shapes (fun _ => [1; a]) (fun _ => [1; b]) oms (TupleShape (1 :: tl x)) = if a =? b then Ok (ArrayOut [1; a + b]) else Err ValueError).
  { unfold reg_shapes; rewrite M; reflexivity. }
  rewrite HS. destruct (Nat.eqb_spec a b) as [->|Nab].
  - cbn [bind out_dim last_dim rev app]. destruct (ocm_ok calibrator (b + b) (Child (Child g 0) 0) MC) as [o Ho]. rewrite Ho; cbn [bind snd js_params js_mutable].
    assert (HS2 : reg_shapes (fun _ => [1; b]) (fun _ => [1; b]) {| ms_params := ms_params oms; ms_mutable := ms_mutable oms |} (TupleShape (1 :: tl x)) = Ok (ArrayOut [1; b + b])).
    { unfold reg_shapes; cbn [ms_mutable]; rewrite M; cbn. now rewrite Nat.eqb_refl. }
    rewrite HS2; cbn [bind second_dim]. destruct (Nat.eqb_spec (b + b) (2 * m)) as [E|E].
    + split; [|reflexivity]; intros _. exists n, m, tail; repeat split; lia.
    + split; [discriminate|]. intros [n' [m' [t' [Ey [_ [Ea _]]]]]]; injection Ey as _ <- _; lia.
  - cbn [bind snd]. split; [discriminate|]. intros [n' [m' [t' [Ey [_ [-> ->]]]]]]; now elim Nab.
Qed.
Theorem reg_check_mutable_raises : forall V (net_init var_init : key * key -> list nat -> variables V) net_out var_out calibrator x y rest g,
  makes_params net_init -> makes_params var_init ->
  (forall k s, ~ only_params (net_init k s)) \/ (forall k s, ~ only_params (var_init k s)) ->
  is_ok (snd (reg_check (reg_init net_init var_init) (reg_shapes net_out var_out) calibrator ((x, y) :: rest) g)) = false.
Proof.
  intros V net_init var_init net_out var_out calibrator x y rest g MP MV MU. unfold reg_check. destruct x as [x|d]; [|reflexivity].
  destruct (second_dim y) as [n|]; cbn [bind]; [|reflexivity]. destruct (n =? 0); [reflexivity|].
  unfold joint_init; cbn [rng_get]. destruct (reg_init_state net_init var_init (tl x) (Child g 0) MP MV) as [oms [HO HM]].
  assert (M : ms_mutable oms <> None) by (intro M; apply HM in M; destruct M as [M1 M2]; destruct MU as [MU|MU]; [now apply MU in M1|now apply MU in M2]).
  rewrite HO; cbn [bind get_inputs_from_shape]. unfold reg_shapes at 1. destruct (ms_mutable oms) eqn:EM; [reflexivity|now elim M].
Qed.
Theorem reg_check_first_batch : forall V init apply (calibrator : option (key * key -> list nat -> variables V)) b rest rest' g,
  reg_check init apply calibrator (b :: rest) g = reg_check init apply calibrator (b :: rest') g.
Proof. intros V init apply calibrator [[x|d] y] rest rest' g; reflexivity. Qed.
Theorem reg_check_raises : forall V init apply (calibrator : option (key * key -> list nat -> variables V)) g,
  reg_check init apply calibrator [] g = (g, Err ValueError) /\
  (forall x n rest, reg_check init apply calibrator ((TupleShape x, [n]) :: rest) g = (g, Err IndexError)) /\
  (forall x n rest, reg_check init apply calibrator ((TupleShape x, [n; 0]) :: rest) g = (g, Err ValueError)) /\
  (forall d y rest, reg_check init apply calibrator ((DictShape d, y) :: rest) g = (g, Err AttributeError)).
Proof. intros V init apply calibrator g; repeat split. Qed.

(** ---- training ---- *)
Theorem train_rejected : forall L Sp F C (check : L -> key -> key * result unit) fit (calib : L -> option L -> Sp -> key -> key * result (C * Sp)) batches tl vl cl st g g' e,
  check tl g = (g', Err e) -> train check (F := F) fit calib batches tl vl cl st g = (g', st, Err e).
Proof. intros L Sp F C check fit calib batches t v c st g g' e H; unfold train; now rewrite H. Qed.
Theorem calib_checked_after_fit : forall L Sp F C (check : L -> key -> key * result unit) fit (calib : L -> option L -> Sp -> key -> key * result (C * Sp)) batches tl vl cl st g g1 g2 g3 (f : F) st' e,
  check tl g = (g1, Ok tt) -> fit tl vl st g1 = (g2, Ok (f, st')) -> batches cl <> 0 -> check cl g2 = (g3, Err e) ->
  train check fit calib batches tl vl (Some cl) st g = (g3, st', Err e).
Proof.
  intros L Sp F C check fit calib batches t v c st g g1 g2 g3 f st' e H1 H2 H3 H4. unfold train, calibrate. rewrite H1, H2.
  rewrite (proj2 (Nat.eqb_neq _ _) H3). now rewrite H4.
Qed.
Theorem val_checked_after_fit : forall L Sp F C (check : L -> key -> key * result unit) fit (calib : L -> option L -> Sp -> key -> key * result (C * Sp)) batches tl v cl st g g1 g2 g3 g4 (f : F) st' e,
  check tl g = (g1, Ok tt) -> fit tl (Some v) st g1 = (g2, Ok (f, st')) -> batches cl <> 0 -> check cl g2 = (g3, Ok tt) -> check v g3 = (g4, Err e) ->
  train check fit calib batches tl (Some v) (Some cl) st g = (g4, st', Err e).
Proof.
  intros L Sp F C check fit calib batches t v c st g g1 g2 g3 g4 f st' e H1 H2 H3 H4 H5. unfold train, calibrate. rewrite H1, H2.
  rewrite (proj2 (Nat.eqb_neq _ _) H3). now rewrite H4, H5.
Qed.
(** without a calibration loader only the training loader is checked *)
Theorem val_unchecked : forall L Sp F C (check check' : L -> key -> key * result unit) (fit : L -> option L -> Sp -> key -> key * result (F * Sp)) (calib : L -> option L -> Sp -> key -> key * result (C * Sp)) batches tl vl st g,
  check tl g = check' tl g ->
  train check fit calib batches tl vl None st g = train check' fit calib batches tl vl None st g.
Proof. intros L Sp F C check check' fit calib batches t v st g H; unfold train; rewrite H. destruct (check' t g) as [g1 [u|e]]; [|reflexivity]. reflexivity. Qed.
Theorem train_accepted : forall L Sp F C (check : L -> key -> key * result unit) fit (calib : L -> option L -> Sp -> key -> key * result (C * Sp)) batches tl v cl st g g1 g2 g3 g4 g5 (f : F) st' c st2,
  check tl g = (g1, Ok tt) -> fit tl (Some v) st g1 = (g2, Ok (f, st')) -> batches cl <> 0 -> check cl g2 = (g3, Ok tt) -> check v g3 = (g4, Ok tt) ->
  calib cl (Some v) st' g4 = (g5, Ok (c, st2)) ->
  train check fit calib batches tl (Some v) (Some cl) st g = (g5, st2, Ok (f, Some c)).
Proof.
  intros L Sp F C check fit calib batches t v cl st g g1 g2 g3 g4 g5 f st' c st2 H1 H2 H3 H4 H5 H6. unfold train, calibrate. rewrite H1, H2.
  rewrite (proj2 (Nat.eqb_neq _ _) H3). now rewrite H4, H5, H6.
Qed.
