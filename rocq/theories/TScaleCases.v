(** Concrete cases of temperature scaling calibrators as objects. *)
From Coq Require Import List Arith ZArith QArith Bool Lia Reals Lqa.
From Verif Require Import Lib QuantModel ConfRegModel ConfClassModel MetricSpec MultiSpec OneShotModel OneShotSpec TempModel TempSpec TScaleModel TScaleSpec TScaleProofs TScaleProofs2.
Import ListNotations.
Open Scope Q_scope.

Definition ints (ys : list Z) : targets := {| y_axes := 1; y_dtype := Int64; y_values := ys |}.
Definition no_ce (ps : list Q) (ys : list Z) : Q := 1.
Definition as_is (loss : Q -> option Q) (x : Q) : Q := x.
Definition tidy_num (t : option num) : option num := match t with Some (Fin q) => Some (Fin (Qred q)) | t => t end.
Definition tidy_probs (r : result (list (option Q))) := match r with Ok l => Ok (map (option_map Qred) l) | Err e => Err e end.
Definition f1_first : scaler := snd (bfit no_ce as_is F1 fresh (Vec [1 # 4; 1]) (ints [0; 1]%Z) (1 # 2)).
Theorem failed_refuted : exists ce finish o ps t, used ce finish F1 o /\ fst (bfit ce finish F1 o ps t 0) = Err ZeroDivisionError /\ bpredict F1 (snd (bfit ce finish F1 o ps t 0)) ps None <> bpredict F1 o ps None.
Proof.
  exists no_ce, as_is, f1_first, (Vec [1 # 4; 1]), (ints [0; 1]%Z). split; [unfold f1_first; apply once_more, unused|]. split; [vm_compute; reflexivity|]. vm_compute. discriminate.
Qed.
Theorem int32_refuted : forall ce finish m o, exists ps t, fst (bfit ce finish m o ps t (1 # 2)) = Ok tt /\
  fst (bfit ce finish m o ps {| y_axes := y_axes t; y_dtype := Int32; y_values := y_values t |} (1 # 2)) = Err ValueError.
Proof. intros ce finish m o. exists (Vec [1 # 4; 1]), (ints [0; 1]%Z). split; [|reflexivity]. destruct m; reflexivity. Qed.
Theorem lengths_refuted : forall ce finish o th, exists l t, length l <> length (y_values t) /\ fst (bfit ce finish Bias o (Vec l) t th) = Ok tt /\ tidy_num (s_temp (snd (bfit ce finish Bias o (Vec l) t th))) = Some (Fin (3 # 4)).
Proof. intros ce finish o th. exists [1 # 4; 1 # 2], (ints [0; 1; 0; 1]%Z). split; [discriminate|]. split; vm_compute; reflexivity. Qed.
Theorem negative_refuted : forall mfinish o, exists p t t', Forall (fun y => (y < 0)%Z) (y_values t) /\ fst (mfit mfinish o p t) = Ok tt /\ mfit mfinish o p t = mfit mfinish o p t' /\ y_values t' = [1%Z].
Proof.
  intros mfinish o. exists {| p_axes := 2; p_rows := [[1 / 4; 3 / 4]%R]; p_width := 2 |}, (ints [-1]%Z), (ints [1]%Z). split; [repeat constructor|]. split; [reflexivity|]. split; reflexivity.
Qed.
Lemma case_bias : let o := snd (bfit no_ce as_is Bias fresh (Vec [1 # 2; 1; 3 # 4]) (ints [0; 1; 0]%Z) 0) in
  tidy_num (s_temp o) = Some (Fin (9 # 4)) /\ tidy_probs (bproba o (Vec [9 # 8; 1; 3])) = Ok [Some (1 # 2); Some (4 # 9); Some 1] /\ bpredict Bias o (Vec [9 # 8; 1; 3]) None = Ok [true; false; true].
Proof. split; [|split]; vm_compute; reflexivity. Qed.
Lemma case_brier : let o := snd (bfit no_ce as_is Brier fresh (Vec [1 # 2; 1; 1 # 2]) (ints [0; 1; 1]%Z) 0) in
  tidy_num (s_temp o) = Some (Fin 1) /\ fst (bfit no_ce as_is Brier o (Vec [1 # 2; 1; 1 # 2]) (ints [0; 1]%Z) 0) = Err ValueError /\
  bproba o (Mat [[1]]) = Err ValueError /\ bproba fresh (Vec [1]) = Err TypeError.
Proof. split; [|split; [|split]]; vm_compute; reflexivity. Qed.
Lemma case_f1 : bpredict F1 f1_first (Vec [1 # 4; 1]) None = Ok [false; true] /\ tidy_num (s_temp (snd (bfit no_ce as_is Bias fresh (Vec [1 # 4; 1]) (ints [0; 0]%Z) 0))) = Some (Inf true).
Proof. split; vm_compute; reflexivity. Qed.
