(** Samples of diagonal Gaussians. *)
From Coq Require Import List Arith Lia Reals Lra.
From Verif Require Import Lib TempModel LapModel.
Import ListNotations.
Open Scope R_scope.

Lemma diag_sample_entry : forall mean std noise, length std = length mean -> length noise = length mean ->
  length (diag_sample mean std noise) = length mean /\
  forall i m s z, nth_error mean i = Some m -> nth_error std i = Some s -> nth_error noise i = Some z -> nth_error (diag_sample mean std noise) i = Some (m + s * z).
Proof.
  unfold diag_sample. induction mean as [|m mean IH]; intros [|s std] [|z noise] L1 L2; try discriminate.
  - split; [reflexivity|]. intros [|i]; discriminate.
  - injection L1 as L1. injection L2 as L2. destruct (IH std noise L1 L2) as [A B]. cbn [combine map length fst snd]. split; [now rewrite A|].
    intros [|i] m' s' z'; cbn [nth_error]; [congruence|apply B].
Qed.
Lemma diag_sample_density : forall mean std noise, length std = length mean -> length noise = length mean -> Forall (fun s => 0 < s) std ->
  diag_log_prob mean std (diag_sample mean std noise) = diag_log_prob (map (fun _ => 0) noise) (map (fun _ => 1) noise) noise - rsum (map ln std).
Proof.
  unfold diag_sample, diag_log_prob. induction mean as [|m mean IH]; intros [|s std] [|z noise] L1 L2 F; try discriminate.
  - cbn. lra.
  - injection L1 as L1. injection L2 as L2. inversion F as [|? ? P F']; subst. specialize (IH std noise L1 L2 F').
    cbn [combine map fst snd rsum fold_right] in *. unfold rsum in *. cbn [fold_right] in *. rewrite IH. clear IH.
    assert (E : norm_logpdf (m + s * z) m s = norm_logpdf z 0 1 - ln s).
    { unfold norm_logpdf. assert (0 < PI) by apply PI_RGT_0. replace (2 * PI * (s * s)) with (2 * PI * (1 * 1) * (s * s)) by ring.
      rewrite (ln_mult (2 * PI * (1 * 1)) (s * s)) by nra. rewrite (ln_mult s s) by assumption. field. lra. }
    rewrite E. lra.
Qed.
