(** Proofs for DescModel.v. *)
From Coq Require Import List Arith ZArith QArith Bool String Lia.
From Verif Require Import Lib QuantModel PredModel LikModel CalibModel TrainModel TrainSpec TrainProofs TrainProofs2 TrainProofs3 TrainProofs4 DescModel DescSpec.
Import ListNotations.
Open Scope list_scope.
Local Notation length := List.length.

Lemma descend_app : forall St B (upd : nat -> St -> B -> St) l1 l2 j s,
  descend upd j (l1 ++ l2) s = descend upd (j + length l1) l2 (descend upd j l1 s).
Proof.
  intros St B upd l1. induction l1 as [|b r IH]; intros l2 j s; cbn [descend app length].
  - now rewrite Nat.add_0_r.
  - rewrite IH. f_equal. lia.
Qed.
Lemma descend_proj : forall St St' B (inv : St -> Prop) (f : nat -> St -> B -> St) (g : nat -> St' -> B -> St') (pr : St -> St'),
  (forall j s b, inv s -> pr (f j s b) = g j (pr s) b /\ inv (f j s b)) ->
  forall bs j s, inv s -> pr (descend f j bs s) = descend g j bs (pr s) /\ inv (descend f j bs s).
Proof.
  intros St St' B inv f g pr H bs. induction bs as [|b r IH]; intros j s I; cbn [descend]; [split; [reflexivity|exact I]|].
  destruct (H j s b I) as (E & I'). rewrite <- E. now apply IH.
Qed.
Lemma passes_length : forall B n (bs : list B), length (passes n bs) = (n * length bs)%nat.
Proof. intros B n bs. unfold passes. induction n as [|n IH]; cbn; [reflexivity|]. rewrite app_length, IH. reflexivity. Qed.
Section Loop.
Variables St B V : Type.
Variable stp : St -> nat.
Variable inv : St -> Prop.
Variable U : nat -> St -> B -> St.
Variable R : St -> B -> nat -> list Q.
Variable tstep : result St -> B -> nat -> result St * list Q.
Hypothesis H : forall s b j, inv s -> tstep (Ok s) b j = (Ok (U j s b), R s b j) /\ stp (U j s b) = S (stp s) /\ inv (U j s b).
Definition sno (s : result St) : nat := match s with Ok s => stp s | Err _ => 0%nat end.

Lemma fold_ok : forall bs s, inv s ->
  fold_left (fun s b => fst (tstep s b (sno s))) bs (Ok s) = Ok (descend U (stp s) bs s)
  /\ stp (descend U (stp s) bs s) = (stp s + length bs)%nat /\ inv (descend U (stp s) bs s).
Proof.
  induction bs as [|b r IH]; intros s I; cbn [fold_left descend length].
  - repeat split; [lia|exact I].
  - destruct (H s b (stp s) I) as (E & K & I'). change (sno (Ok s)) with (stp s). rewrite E. cbn [fst]. specialize (IH _ I'). rewrite K in IH.
    destruct IH as (A & C & D). repeat split; [exact A|lia|exact D].
Qed.
Lemma pass_ok : forall bs s, inv s ->
  snd (one_pass sno tstep (fun s => s) bs (Ok s))
  = map (fun ib => R (descend U (stp s) (firstn (fst ib) bs) s) (snd ib) (stp s + fst ib)) (combine (seq 0 (length bs)) bs).
Proof.
  induction bs as [|b r IH]; intros s I; [reflexivity|]. cbn [one_pass length seq combine map].
  destruct (H s b (stp s) I) as (E & K & I'). change (sno (Ok s)) with (stp s). rewrite E. specialize (IH _ I'). rewrite K in IH.
  destruct (one_pass sno tstep (fun s => s) r (Ok (U (stp s) s b))) as [s2 l]. cbn [snd fst firstn descend] in *.
  rewrite Nat.add_0_r. f_equal. rewrite IH. rewrite <- seq_shift.
  clear. generalize (seq 0 (length r)) as is0. intros is0.
  assert (Z : forall r2, map (fun ib => R (descend U (S (stp s)) (firstn (fst ib) r) (U (stp s) s b)) (snd ib) (S (stp s) + fst ib)) (combine is0 r2)
     = map (fun ib => R (descend U (stp s) (firstn (fst ib) (b :: r)) s) (snd ib) (stp s + fst ib)) (combine (map S is0) r2)).
  { induction is0 as [|i is0 IHi]; intros [|x r2]; try reflexivity. cbn [combine map fst snd firstn descend]. rewrite IHi. f_equal. f_equal. lia. }
  apply Z.
Qed.
Lemma epochs_ok : forall bs n s, inv s ->
  times n (one_epoch sno tstep (fun s => s) (fun s => s) (fun s => s) bs) (Ok s) = Ok (descend U (stp s) (passes n bs) s)
  /\ stp (descend U (stp s) (passes n bs) s) = (stp s + n * length bs)%nat /\ inv (descend U (stp s) (passes n bs) s).
Proof.
  intros bs n. induction n as [|n IH]; intros s I.
  - cbn. repeat split; [lia|exact I].
  - cbn [times]. unfold one_epoch at 2. destruct (fold_ok bs s I) as (A & C & D). rewrite A. destruct (IH _ D) as (A2 & C2 & D2). rewrite A2. rewrite C in C2, D2 |- *.
    change (passes (S n) bs) with (bs ++ passes n bs). rewrite descend_app. repeat split; [rewrite C2; cbn; lia|exact D2].
Qed.
Lemma train_ok : forall (vstep : result St -> V -> list Q) monitor c bs vs t s t' s' ms mvs, inv s -> (accumulation c <= 1)%nat ->
  train sno tstep vstep (fun s => s) (fun s => s) (fun s => s) monitor c bs vs t (Ok s) = Ok (t', s', ms, mvs) ->
  let at_ := fun e i => descend U (stp s) (before e i bs) s in
  (length ms <= n_epochs c)%nat /\ (is_active (stop_config c) = false -> length ms = n_epochs c)
  /\ s' = Ok (at_ (length ms) 0%nat) /\ stp (at_ (length ms) 0%nat) = (stp s + length ms * length bs)%nat /\ inv (at_ (length ms) 0%nat)
  /\ (forall e, (e < length ms)%nat ->
        is_mean_of (map (fun ib => R (at_ e (fst ib)) (snd ib) (stp s + e * length bs + fst ib)) (combine (seq 0 (length bs)) bs)) (nth e ms []))
  /\ match vs with
     | None => mvs = []
     | Some v => Forall2 (fun e m => is_mean_of (map (vstep (Ok (at_ (S e) 0%nat))) v) m) (validation_epochs (eval_every c) (length ms)) mvs
     end.
Proof.
  intros vstep monitor c bs vs t s t' s' ms mvs I K T at_.
  destruct (@train_runs_epochs _ _ _ sno tstep vstep (fun s => s) (fun s => s) (fun s => s) monitor c bs vs t (Ok s) t' s' ms mvs T K (fun x => eq_refl)) as (A1 & A2 & A3 & A4 & A5).
  assert (Z : forall e, at_ e 0%nat = descend U (stp s) (passes e bs) s) by (intros e; unfold at_, before; cbn [firstn]; now rewrite app_nil_r).
  split; [exact A1|]. split; [exact A2|]. destruct (epochs_ok bs (length ms) s I) as (E1 & E2 & E3).
  split; [rewrite A3, E1, Z; reflexivity|]. split; [rewrite Z; exact E2|]. split; [rewrite Z; exact E3|]. split.
  - intros e He. specialize (A4 e He). destruct (epochs_ok bs e s I) as (F1 & F2 & F3). rewrite F1, pass_ok in A4 by exact F3. rewrite F2 in A4.
    replace (map (fun ib => R (at_ e (fst ib)) (snd ib) (stp s + e * length bs + fst ib)) (combine (seq 0 (length bs)) bs))
      with (map (fun ib => R (descend U (stp s + e * length bs) (firstn (fst ib) bs) (descend U (stp s) (passes e bs) s)) (snd ib) (stp s + e * length bs + fst ib)) (combine (seq 0 (length bs)) bs)); [exact A4|].
    apply map_ext. intros [i b]. cbn [fst snd]. unfold at_, before. rewrite descend_app, passes_length. reflexivity.
  - destruct vs as [v|]; [|exact A5]. clear - A5 I H Z. revert A5. generalize (validation_epochs (eval_every c) (length ms)) as es. intros es A5.
    induction A5 as [|e m es l X A5 IH]; constructor; [|exact IH]. destruct (epochs_ok bs (S e) s I) as (F1 & _). rewrite F1 in X. rewrite Z. exact X.
Qed.
End Loop.
