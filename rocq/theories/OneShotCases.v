From Coq Require Import List Arith ZArith QArith Qabs Bool Lia Lqa.
From Verif Require Import Lib QuantModel QuantSpec QuantProofs ConfRegModel ConfClassModel MultiModel MultiSpec MultiProofs OneShotModel OneShotSpec OneShotProofs OneShotProofs2 OneShotProofs3 OneShotProofs4 OneShotProofs6.
Import ListNotations.
Open Scope Q_scope.

Definition ints (l : list Q) : typed := {| t_array := Vec l; t_int := true |}.
Definition two_rows : list (list Q) := [[3 # 5; 2 # 5]; [2 # 5; 3 # 5]].
Definition grid_rows : list (list Q) := [[1 # 2; 1 # 2]; [1; 0]; [1; 0]; [1; 0]; [0; 1]].
Definition red (r : result array) : result array := match r with Ok (Vec l) => Ok (Vec (map Qred l)) | Ok (Mat rows) => Ok (Mat (map (map Qred) rows)) | Err e => Err e end.

Lemma unit_dec l : existsb outside l = false -> Forall in_unit l. Proof. apply none_outside. Qed.
Lemma two_acceptable : acceptable (TopLabel 2) (ints [1; 1]) (Some (Mat two_rows)) None None.
Proof.
  split; [exists [1; 1]; repeat split; lia|]. split; [|split; discriminate]. eexists. split; [reflexivity|]. split; [reflexivity|]. apply entries_unit. vm_compute. reflexivity.
Qed.
Lemma two_result : red (apply_patches (TopLabel 2) (snd (calibrate (TopLabel 2) fresh (ints [1; 1]) (Some (Mat two_rows)) None 3 None)) (Mat two_rows)) = Ok (Mat [[0; 2 # 5]; [2 # 5; 1]]).
Proof. vm_compute. reflexivity. Qed.
Theorem sum_refuted : exists t rows n out, acceptable (TopLabel 2) t (Some (Mat rows)) None None /\ Forall (fun row => nth 0 row 0 + nth 1 row 0 == 1) rows /\
  apply_patches (TopLabel 2) (snd (calibrate (TopLabel 2) fresh t (Some (Mat rows)) None n None)) (Mat rows) = Ok (Mat out) /\ exists row, In row out /\ ~ nth 0 row 0 + nth 1 row 0 == 1.
Proof.
  exists (ints [1; 1]), two_rows, 3%nat. eexists. split; [exact two_acceptable|]. split; [repeat constructor|]. split; [vm_compute; reflexivity|]. eexists. split; [left; reflexivity|]. vm_compute. discriminate.
Qed.
Theorem label_refuted : exists t rows n out, acceptable (TopLabel 2) t (Some (Mat rows)) None None /\
  apply_patches (TopLabel 2) (snd (calibrate (TopLabel 2) fresh t (Some (Mat rows)) None n None)) (Mat rows) = Ok (Mat out) /\
  exists row row', nth_error rows 0 = Some row /\ nth_error out 0 = Some row' /\ top_label_is row 0 /\ top_label_is row' 1.
Proof.
  exists (ints [1; 1]), two_rows, 3%nat. eexists. split; [exact two_acceptable|]. split; [vm_compute; reflexivity|]. do 2 eexists. split; [reflexivity|]. split; [reflexivity|].
  split; (split; [cbn; lia|split]).
  - intros [|[|j]] Hj; cbn in Hj |- *; try lia; lra.
  - intros j Hj. lia.
  - intros [|[|j]] Hj; cbn in Hj |- *; try lia; unfold Qle; cbn; lia.
  - intros [|j] Hj; [unfold Qlt; cbn; lia|lia].
Qed.
Lemma pair_acceptable : acceptable Binary (ints [1; 0]) (Some (Vec [2 # 5; 3 # 5])) None None.
Proof.
  split.
  - exists [1; 0]. split; [reflexivity|]. split; [reflexivity|]. split; [intros y [<-|[<-|[]]]; [right|left]; reflexivity|]. split; [exists 0|exists 1]; cbn; split; auto; reflexivity.
  - split; [|split; discriminate]. eexists. split; [reflexivity|]. split; [reflexivity|]. apply entries_unit. vm_compute. reflexivity.
Qed.
Theorem loss_refuted : exists t l xs n out, t_array t = Vec l /\ acceptable Binary t (Some (Vec xs)) None None /\
  apply_patches Binary (snd (calibrate Binary fresh t (Some (Vec xs)) None n None)) (Vec xs) = Ok (Vec out) /\ sq_error xs l < sq_error out l.
Proof.
  exists (ints [1; 0]), [1; 0], [2 # 5; 3 # 5], 2%nat. eexists. split; [reflexivity|]. split; [exact pair_acceptable|]. split; [vm_compute; reflexivity|]. unfold Qlt. cbn. lia.
Qed.
Theorem failed_refuted : exists t o xs n out out', o = snd (calibrate Binary fresh t (Some (Vec xs)) None 2 None) /\
  fst (calibrate Binary o t (Some (Vec [0; 1; 1])) None n None) = Err TypeError /\
  apply_patches Binary o (Vec [1 # 2]) = Ok (Vec [out]) /\ apply_patches Binary (snd (calibrate Binary o t (Some (Vec [0; 1; 1])) None n None)) (Vec [1 # 2]) = Ok (Vec [out']) /\ ~ out == out'.
Proof.
  exists (ints [1; 0]). eexists. exists [2 # 5; 3 # 5], 3%nat. do 2 eexists. split; [reflexivity|]. split; [reflexivity|]. split; [vm_compute; reflexivity|]. split; [vm_compute; reflexivity|]. vm_compute. discriminate.
Qed.
Theorem range_refuted : exists t l rows n, t_array t = Vec l /\ In 5 l /\ acceptable (TopLabel 2) t (Some (Mat rows)) None None /\ fst (calibrate (TopLabel 2) fresh t (Some (Mat rows)) None n None) = Ok None.
Proof.
  exists (ints [5; 1]), [5; 1], two_rows, 3%nat. split; [reflexivity|]. split; [now left|]. split; [|reflexivity].
  split; [exists [5; 1]; repeat split; lia|]. split; [|split; discriminate]. eexists. split; [reflexivity|]. split; [reflexivity|]. apply entries_unit. vm_compute. reflexivity.
Qed.
Lemma case_grid : let t := ints [0; 0; 1; 0; 1] in
  acceptable (TopLabel 2) t (Some (Mat grid_rows)) None None /\ all_entries (on_grid 3) (Mat grid_rows) /\
  red (apply_patches (TopLabel 2) (snd (calibrate (TopLabel 2) fresh t (Some (Mat grid_rows)) None 3 None)) (Mat grid_rows)) = Ok (Mat [[1; 1 # 2]; [2 # 3; 0]; [2 # 3; 0]; [2 # 3; 0]; [0; 1]]).
Proof.
  split; [|split].
  - split; [exists [0; 0; 1; 0; 1]; repeat split; lia|]. split; [|split; discriminate]. eexists. split; [reflexivity|]. split; [reflexivity|]. apply entries_unit. vm_compute. reflexivity.
  - assert (A : on_grid 3 0) by (exists 0%nat; split; [lia|reflexivity]). assert (B : on_grid 3 (1 # 2)) by (exists 1%nat; split; [lia|reflexivity]). assert (C : on_grid 3 1) by (exists 2%nat; split; [lia|reflexivity]).
    cbn. repeat constructor; assumption.
  - vm_compute. reflexivity.
Qed.
Lemma case_binary : exists r, fst (calibrate Binary fresh (ints [1; 0; 1; 1]) (Some (Vec [0; 1 # 10; 1 # 2; 1])) (Some (Vec [1 # 20; 9 # 10])) 3 (Some 0)) = Ok (Some (Vec r)) /\ map Qred r = [1 # 2; 1].
Proof. eexists. split; [vm_compute; reflexivity|]. reflexivity. Qed.
