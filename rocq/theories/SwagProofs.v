(** Training loops on states that carry more than another loop's states. *)
From Coq Require Import List Arith ZArith QArith Bool String Lia Lqa.
From Verif Require Import Lib QuantModel ConfRegModel PredModel LikModel CalibModel TrainModel TrainSpec TrainProofs TrainProofs2 TrainProofs3 TrainProofs4 McmcModel DescModel DescSpec DescProofs DescProofs3 SwagModel SwagSpec.
Import ListNotations.
Open Scope list_scope.
Local Notation length := List.length.

Section Sim.
Variables S1 S2 B V : Type.
Variable pr : S1 -> S2.
Variables (no1 : S1 -> nat) (no2 : S2 -> nat).
Variables (step1 : S1 -> B -> nat -> S1 * list Q) (step2 : S2 -> B -> nat -> S2 * list Q).
Variables (v1 : S1 -> V -> list Q) (v2 : S2 -> V -> list Q).
Variables (a1 b1 c1 : S1 -> S1) (a2 b2 c2 : S2 -> S2).
Variable monitor : list Q -> option Q.
Hypothesis Hno : forall s, no1 s = no2 (pr s).
Hypothesis Hstep : forall s b k, pr (fst (step1 s b k)) = fst (step2 (pr s) b k) /\ snd (step1 s b k) = snd (step2 (pr s) b k).
Hypothesis Hv : forall s v, v1 s v = v2 (pr s) v.
Hypothesis Ha : forall s, pr (a1 s) = a2 (pr s).
Hypothesis Hb : forall s, pr (b1 s) = b2 (pr s).
Hypothesis Hc : forall s, pr (c1 s) = c2 (pr s).
Definition tmap (t : trainer S1) : trainer S2 := {| es := es t; gstep := gstep t; saved := map (fun x => (fst x, pr (snd x))) (saved t) |}.
Lemma save_sim c f t s : tmap (save S1 c f t s) = save S2 c f (tmap t) (pr s).
Proof. unfold save. destruct (save_dir c); [|reflexivity]. unfold tmap. cbn. now rewrite map_app. Qed.
Lemma step_end_sim c t s : let '(t', s') := step_end S1 b1 c t s in step_end S2 b2 c (tmap t) (pr s) = (tmap t', pr s').
Proof.
  unfold step_end. rewrite Hb. f_equal. destruct (save_every c) as [n|]; [|reflexivity]. change (gstep (tmap t)) with (gstep t).
  destruct (_ && _ && _); [|reflexivity]. symmetry. apply save_sim.
Qed.
Lemma batches_sim c bs : forall i key t s ms, let '(t', s', ms') := batches_loop S1 B no1 step1 b1 c bs i key t s ms in
  batches_loop S2 B no2 step2 b2 c bs i key (tmap t) (pr s) ms = (tmap t', pr s', ms').
Proof.
  induction bs as [|b r IH]; intros i key t s ms; [reflexivity|]. cbn [batches_loop]. destruct (Hstep s b key) as [E1 E2].
  destruct (step1 s b key) as [s1 m]. destruct (step2 (pr s) b key) as [s2 m2]. cbn [fst snd] in E1, E2. subst s2 m2.
  destruct (_ && _).
  - apply IH.
  - rewrite <- Hno. pose proof (step_end_sim c {| es := es t; gstep := S (gstep t); saved := saved t |} s1) as E.
    change {| es := es (tmap t); gstep := S (gstep (tmap t)); saved := saved (tmap t) |} with (tmap {| es := es t; gstep := S (gstep t); saved := saved t |}).
    destruct (step_end S1 b1 c _ s1) as [t2 s2]. rewrite E. apply IH.
Qed.
Lemma training_loop_sim c bs t s : training_loop S2 B no2 step2 a2 b2 c2 c bs (tmap t) (pr s) = rmap (fun r => let '(t, s, m) := r in (tmap t, pr s, m)) (training_loop S1 B no1 step1 a1 b1 c1 c bs t s).
Proof.
  unfold training_loop. rewrite <- Ha, <- Hno. pose proof (batches_sim c bs 0 (no1 (a1 s)) t (a1 s) []) as E.
  destruct (batches_loop S1 _ _ _ _ _ _ _ _ _ _ _) as [[t1 s1] ms]. rewrite E. destruct (mean_metrics ms); cbn; [now rewrite Hc|reflexivity].
Qed.
Lemma validation_sim c vs t s : validation_loop S2 V v2 monitor c vs (tmap t) (pr s) = rmap (fun r => (tmap (fst r), snd r)) (validation_loop S1 V v1 monitor c vs t s).
Proof.
  unfold validation_loop. rewrite (map_ext (v1 s) (v2 (pr s)) (Hv s)). destruct (mean_metrics (map (v2 (pr s)) vs)) as [m|]; [|reflexivity]. cbn [bind].
  destruct (is_active (stop_config c)); [|reflexivity]. destruct (monitor m) as [v|]; [|reflexivity]. cbn [rmap bind fst snd]. f_equal. f_equal.
  change (es (tmap t)) with (es t).
  destruct (has_improved _); [symmetry; apply save_sim|reflexivity].
Qed.
Lemma epochs_sim c bs vs : forall n e t s, epochs_loop S2 B V no2 step2 v2 a2 b2 c2 monitor c bs vs n e (tmap t) (pr s)
  = rmap (fun r => let '(t, s, ms, mvs) := r in (tmap t, pr s, ms, mvs)) (epochs_loop S1 B V no1 step1 v1 a1 b1 c1 monitor c bs vs n e t s).
Proof.
  induction n as [|n IH]; intros e t s; [reflexivity|]. cbn [epochs_loop]. rewrite training_loop_sim.
  destruct (training_loop S1 _ _ _ _ _ _ _ _ _ _) as [[[t1 s1] m]|]; [|reflexivity]. cbn [bind rmap].
  assert (Z : forall t (f : list (list Q) -> list (list Q)), bind (epochs_loop S2 B V no2 step2 v2 a2 b2 c2 monitor c bs vs n (S e) (tmap t) (pr s1)) (fun r3 => let '(t3, s3, ms, mvs) := r3 in Ok (t3, s3, m :: ms, f mvs))
    = rmap (fun r => let '(t, s, ms, mvs) := r in (tmap t, pr s, ms, mvs)) (bind (epochs_loop S1 B V no1 step1 v1 a1 b1 c1 monitor c bs vs n (S e) t s1) (fun r3 => let '(t3, s3, ms, mvs) := r3 in Ok (t3, s3, m :: ms, f mvs)))).
  { intros t0 f. rewrite IH. destruct (epochs_loop S1 _ _ _ _ _ _ _ _ _ _ _ _ _ _ _ _) as [[[[t3 s3] ms3] mvs3]|]; reflexivity. }
  destruct vs as [v|]; [|apply (Z t1 (fun x => x))].
  unfold should_validate at 1 2. destruct (_ && _); [|apply (Z t1 (fun x => x))].
  rewrite validation_sim. destruct (validation_loop S1 _ _ _ _ _ _ _) as [[t2 mv]|]; [|reflexivity]. cbn [bind rmap fst snd].
  change (es (tmap t2)) with (es t2). destruct (_ && _); [reflexivity|]. apply (Z t2 (fun x => mv :: x)).
Qed.
Lemma train_sim c bs vs t s : train no2 step2 v2 a2 b2 c2 monitor c bs vs (tmap t) (pr s)
  = rmap (fun r => let '(t, s, ms, mvs) := r in (tmap t, pr s, ms, mvs)) (train no1 step1 v1 a1 b1 c1 monitor c bs vs t s).
Proof.
  unfold train. rewrite epochs_sim. destruct (epochs_loop S1 _ _ _ _ _ _ _ _ _ _ _ _ _ _ _ _) as [[[[t3 s3] ms3] mvs3]|]; [|reflexivity].
  cbn [bind rmap]. now rewrite save_sim.
Qed.
End Sim.
