From Coq Require Import List Arith ZArith QArith Bool Lia Reals Lra.
From Verif Require Import Lib QuantModel ConfRegModel ConfClassModel MetricSpec MultiSpec OneShotModel OneShotSpec TempModel TempSpec TempProofs3 TScaleModel TScaleSpec.
Import ListNotations.
Open Scope R_scope.

Lemma eye_class n y c : eye_row n y = Ok c <-> class_of n y c.
Proof.
  unfold eye_row, class_of. destruct (Z.leb_spec 0 y), (Z.ltb_spec y (Z.of_nat n)); cbn [andb].
  1: { split; [intros [= <-]; lia|]. intros [H1 [->|H2]]; [now rewrite Nat2Z.id|lia]. }
  all: destruct (Z.leb_spec (- Z.of_nat n) y), (Z.ltb_spec y 0); cbn [andb]; (split; [intros X; try discriminate X|intros [H5 [H6|H6]]; try lia]).
  all: try (injection X as X); try (f_equal; lia); try lia.
Qed.
Lemma eye_error n y : eye_row n y = Err IndexError <-> ~ (- Z.of_nat n <= y < Z.of_nat n)%Z.
Proof.
  unfold eye_row. destruct (Z.leb_spec 0 y), (Z.ltb_spec y (Z.of_nat n)); cbn [andb]; [split; [discriminate|lia]| | |].
  all: destruct (Z.leb_spec (- Z.of_nat n) y), (Z.ltb_spec y 0); cbn [andb]; (split; [intros X; try discriminate X; try lia|intros X; try reflexivity; lia]).
Qed.
Lemma eye_all n ys cs : Forall2 (class_of n) ys cs -> mapM (eye_row n) ys = Ok cs.
Proof. induction 1 as [|y c ys cs H F IH]; [reflexivity|]. cbn [mapM]. rewrite (proj2 (eye_class n y c) H), IH. reflexivity. Qed.
Lemma eye_some n ys y : In y ys -> ~ (- Z.of_nat n <= y < Z.of_nat n)%Z -> mapM (eye_row n) ys = Err IndexError.
Proof.
  induction ys as [|z ys IH]; intros I N; [destruct I|]. cbn [mapM]. destruct (eye_row n z) as [c|e] eqn:E.
  - destruct I as [->|I]; [apply eye_error in N; congruence|]. cbn [bind]. now rewrite (IH I N).
  - assert (e = IndexError) as ->; [|reflexivity]. unfold eye_row in E. repeat match type of E with context [if ?b then _ else _] => destruct b end; congruence.
Qed.
Section Multi.
Variable mfinish : (R -> R) -> R -> R.
Theorem multi_fit o p t : let r := mfit mfinish o p t in let n := p_width p in
  (p_axes p <> 2%nat \/ y_axes t <> 1%nat \/ y_dtype t <> Int64 -> r = (Err ValueError, o)) /\
  (p_axes p = 2%nat -> y_axes t = 1%nat -> y_dtype t = Int64 ->
     (forall y, In y (y_values t) -> ~ (- Z.of_nat n <= y < Z.of_nat n)%Z -> r = (Err IndexError, o)) /\
     forall cs, Forall2 (class_of n) (y_values t) cs -> searchable (p_rows p) cs ->
       (length (p_rows p) <> length cs -> r = (Err ValueError, o)) /\
       (length (p_rows p) = length cs -> exists tau, r = (Ok tt, Some tau) /\ (forall o2, mfit mfinish o2 p t = r) /\
          (improves Rle mfinish -> Forall (fun row => length row = n) (p_rows p) -> forall i, (i < 1000)%nat ->
             nll (map (mc_scaled tau) (p_rows p)) cs <= nll (map (mc_scaled (rgrid_point (/ 10 ^ 6) 10 1000 i)) (p_rows p)) cs))).
Proof.
  intros r n. unfold r, mfit, check_table, check_targets. fold n. split.
  - intros H. destruct (Nat.eqb_spec (p_axes p) 2) as [A|A]; [|reflexivity]. cbn [bind]. destruct (Nat.eqb_spec (y_axes t) 1) as [B|B]; [|reflexivity]. cbn [negb]. destruct (y_dtype t); try reflexivity. destruct H as [H|[H|H]]; now contradiction H.
  - intros -> -> ->. cbn [Nat.eqb negb bind]. split; [intros y I N; now rewrite (eye_some n _ y I N)|]. intros cs C _. rewrite (eye_all n _ cs C). cbn [bind]. destruct (Nat.eqb_spec (length (p_rows p)) (length cs)) as [E|E].
    + split; [intros X; contradiction|]. intros _. eexists. split; [reflexivity|]. split; [reflexivity|]. intros Imp W i Hi.
      assert (F : Forall2 (fun r0 y => (y < length r0)%nat) (p_rows p) cs).
      { clear - C W E. revert E W. generalize (p_rows p). induction C as [|y c ys cs H C IH]; intros [|row rows] E W; try discriminate; constructor; inversion W; subst; [unfold class_of in H; lia|]. apply IH; [now injection E|assumption]. }
      rewrite <- !mc_loss_nll by exact F. now apply mc_optimal.
    + split; [reflexivity|contradiction].
Qed.
End Multi.
Theorem multi_answers o p : (p_axes p <> 2%nat -> mproba o p = Err ValueError /\ mpredict o p = Err ValueError) /\
  (p_axes p = 2%nat -> (o = None -> mproba o p = Err TypeError) /\
     exists cs, mpredict o p = Ok cs /\ (Forall (fun row => row <> [] /\ Forall (fun x => 0 < x) row) (p_rows p) -> forall t, o = Some t -> 0 < t ->
       exists qs, mproba o p = Ok qs /\ Forall2 (fun q c => rdistribution q /\ first_max q c) qs cs)).
Proof.
  unfold mproba, mpredict, check_table. split.
  - intros H. destruct (Nat.eqb_spec (p_axes p) 2) as [A|A]; [contradiction|]. split; reflexivity.
  - intros ->. cbn [Nat.eqb bind]. split; [intros ->; reflexivity|]. eexists. split; [reflexivity|]. intros F t -> P. eexists. split; [reflexivity|]. induction F as [|row rows [NE H] F IH]; cbn [map]; constructor; [|exact IH].
    split; [apply (mc_distribution t row NE)|apply (mc_prediction t row P NE H)].
Qed.
