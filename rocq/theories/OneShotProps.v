(** C163: one-shot multicalibrators as objects *)
From Coq Require Import List Arith ZArith QArith Qabs Bool.
From Verif Require Import Lib QuantModel ConfRegModel ConfClassModel MultiModel MultiSpec OneShotModel OneShotSpec OneShotProofs OneShotProofs2 OneShotProofs3 OneShotProofs4 OneShotProofs6 OneShotCases.
From Verif Require Import Lit.
Import ListNotations.
Open Scope Q_scope.

Theorem C163_checks : forall k o t values test n p, (0 < n)%nat ->
  let r := calibrate k o t values test n p in
  (~ acceptable k t values test p -> r = (Err ValueError, o)) /\
  (forall a, acceptable k t values test p -> values = Some a -> ~ compatible t a ->
     fst r = Err TypeError /\ o_patches (snd r) = o_patches o /\ o_n_buckets (snd r) = Some n) /\
  (forall a, acceptable k t values test p -> values = Some a -> compatible t a ->
     (forall o', calibrate k o' t values test n p = r) /\ o_patches (snd r) <> None /\ o_n_buckets (snd r) = Some n /\
     match test with
     | None => fst r = Ok None
     | Some b => fst r = match apply_patches k (snd r) b with Ok y => Ok (Some y) | Err e => Err e end
     end).
Proof. exact (@checks). Qed.
Print Assumptions C163_checks.
Theorem C163_patches : forall k o t l values a test n p, (0 < n)%nat -> acceptable k t values test p -> values = Some a -> t_array t = Vec l -> compatible t a ->
  (0 < length l)%nat -> (0 < points a)%nat -> full_rows a ->
  exists ps, o_patches (snd (calibrate k o t values test n p)) = Some ps /\ length ps = n /\
  forall j, (j < n)%nat -> length (nth j ps []) = width k /\
  forall c bs ss bs' ss' N, (c < width k)%nat -> mask_is n c (centre n j) a bs -> Forall2 (score_is k c) l ss ->
    (length bs = N \/ length ss = N) -> stretched N bs bs' -> stretched N ss ss' ->
    let q := nth c (nth j ps []) 0 in
    (threshold k n p * inject_Z (Z.of_nat N) < n_where bs' -> mean_is bs' ss' q) /\ (n_where bs' <= threshold k n p * inject_Z (Z.of_nat N) -> q == centre n j).
Proof. exact (@patches_meaning). Qed.
Print Assumptions C163_patches.
Example C163_case_hypotheses : compatible (ints [1; 0; 1; 1]) (Vec [0; 1 # 10; 1 # 2; 1]) /\ full_rows (Mat two_rows) /\ mask_is 3 0 (1 # 2) (Vec [0; 1 # 10; 1 # 2; 1]) [false; false; true; false] /\
  Forall2 (score_is Binary 0) [1; 0; 1; 1] [1; 0; 1; 1] /\ Forall2 (score_is (TopLabel 2) 1) [1; 0] [1; 0] /\ stretched 3 [true] [true; true; true].
Proof.
  split; [left; reflexivity|]. split; [repeat constructor; discriminate|]. split; [repeat constructor; cbn; intros H; try discriminate H; try reflexivity|]. split; [repeat constructor|].
  split; [repeat constructor; intros H; exfalso; try (apply H; reflexivity); discriminate H|]. split; [reflexivity|]. right. exists true. split; reflexivity.
Qed.
Theorem C163_applied : forall k o ps n a, o_patches o = Some ps -> o_n_buckets o = Some n -> (0 < n)%nat -> length ps = n -> Forall (fun r => length r = width k) ps -> (0 < width k)%nat -> full_rows a ->
  (axes a <> needed k -> apply_patches k o a = Err IndexError) /\
  (axes a = needed k -> exists out, apply_patches k o a = Ok out /\ axes out = axes a /\ points out = points a /\
   match a, out with
   | Vec l, Vec l' => forall i x, nth_error l i = Some x -> exists j, sent_to n l x j /\ nth_error l' i = Some (nth 0 (nth j ps []) 0)
   | Mat rows, Mat rows' => forall i row, nth_error rows i = Some row -> exists c j row', top_label_is row c /\ sent_to n (concat rows) (nth c row 0) j /\
       nth_error rows' i = Some row' /\ length row' = length row /\ nth c row' 0 = nth (Nat.min c (width k - 1)) (nth j ps []) 0 /\ (forall d, d <> c -> nth d row' 0 = nth d row 0)
   | _, _ => False
   end).
Proof. exact (@applied). Qed.
Print Assumptions C163_applied.
Theorem C163_uncalibrated : forall k o a, o_patches o = None -> apply_patches k o a = Ok a.
Proof. exact (@untouched). Qed.
Print Assumptions C163_uncalibrated.
Theorem C163_unit : forall k o t l values a test n p b out, (0 < n)%nat -> acceptable k t values test p -> values = Some a -> t_array t = Vec l -> compatible t a ->
  (0 < length l)%nat -> (0 < points a)%nat -> full_rows a -> full_rows b -> all_entries in_unit b ->
  apply_patches k (snd (calibrate k o t values test n p)) b = Ok out -> all_entries in_unit out.
Proof. exact (@stays_unit). Qed.
Print Assumptions C163_unit.
Example C163_case_unit : all_entries in_unit (Mat two_rows) /\ acceptable (TopLabel 2) (ints [1; 1]) (Some (Mat two_rows)) None None.
Proof. split; [|exact two_acceptable]. repeat constructor; vm_compute; discriminate. Qed.
Theorem C163_grid : forall k o t l values a test n p ss, (0 < n)%nat -> acceptable k t values test p -> values = Some a -> t_array t = Vec l -> length l = points a -> (0 < length l)%nat ->
  full_rows a -> of_width k a -> all_entries (on_grid n) a -> scores_are k l ss ->
  exists out, apply_patches k (snd (calibrate k o t values test n p)) a = Ok out /\
  (forall j c bs, (j < n)%nat -> (c < width k)%nat -> exactly c (centre n j) a bs ->
     (threshold k n p * inject_Z (Z.of_nat (length l)) < n_where bs -> sum_where bs (dimension c out) == sum_where bs (map (fun s => nth c s 0) ss)) /\
     (n_where bs <= threshold k n p * inject_Z (Z.of_nat (length l)) -> forall i, nth i bs false = true -> nth i (dimension c out) 0 == centre n j)) /\
  squared_error out ss <= squared_error a ss.
Proof. exact (@grid). Qed.
Print Assumptions C163_grid.
Example C163_case_grid : of_width (TopLabel 2) (Mat grid_rows) /\ scores_are (TopLabel 2) [0; 1] [[1; 0]; [0; 1]] /\ on_grid 3 (1 # 2).
Proof.
  split; [repeat constructor|]. split; [|exists 1%nat; split; [lia|reflexivity]].
  repeat constructor; intros H0; cbn in *; destruct c as [|[|c]]; try lia; try (exfalso; apply H0; reflexivity); try discriminate H0; reflexivity.
Qed.
Theorem C163_sum_refuted : exists t rows n out, acceptable (TopLabel 2) t (Some (Mat rows)) None None /\ Forall (fun row => nth 0 row 0 + nth 1 row 0 == 1) rows /\
  apply_patches (TopLabel 2) (snd (calibrate (TopLabel 2) fresh t (Some (Mat rows)) None n None)) (Mat rows) = Ok (Mat out) /\ exists row, In row out /\ ~ nth 0 row 0 + nth 1 row 0 == 1.
Proof. exact (@sum_refuted). Qed.
Print Assumptions C163_sum_refuted.
Theorem C163_label_refuted : exists t rows n out, acceptable (TopLabel 2) t (Some (Mat rows)) None None /\
  apply_patches (TopLabel 2) (snd (calibrate (TopLabel 2) fresh t (Some (Mat rows)) None n None)) (Mat rows) = Ok (Mat out) /\
  exists row row', nth_error rows 0 = Some row /\ nth_error out 0 = Some row' /\ top_label_is row 0 /\ top_label_is row' 1.
Proof. exact (@label_refuted). Qed.
Print Assumptions C163_label_refuted.
Theorem C163_loss_refuted : exists t l xs n out, t_array t = Vec l /\ acceptable Binary t (Some (Vec xs)) None None /\
  apply_patches Binary (snd (calibrate Binary fresh t (Some (Vec xs)) None n None)) (Vec xs) = Ok (Vec out) /\ sq_error xs l < sq_error out l.
Proof. exact (@loss_refuted). Qed.
Print Assumptions C163_loss_refuted.
Theorem C163_failed_refuted : exists t o xs n out out', o = snd (calibrate Binary fresh t (Some (Vec xs)) None 2 None) /\
  fst (calibrate Binary o t (Some (Vec [0; 1; 1])) None n None) = Err TypeError /\
  apply_patches Binary o (Vec [1 # 2]) = Ok (Vec [out]) /\ apply_patches Binary (snd (calibrate Binary o t (Some (Vec [0; 1; 1])) None n None)) (Vec [1 # 2]) = Ok (Vec [out']) /\ ~ out == out'.
Proof. exact (@failed_refuted). Qed.
Print Assumptions C163_failed_refuted.
Theorem C163_range_refuted : exists t l rows n, t_array t = Vec l /\ In 5 l /\ acceptable (TopLabel 2) t (Some (Mat rows)) None None /\ fst (calibrate (TopLabel 2) fresh t (Some (Mat rows)) None n None) = Ok None.
Proof. exact (@range_refuted). Qed.
Print Assumptions C163_range_refuted.
Example C163_case : let t := ints [0; 0; 1; 0; 1] in
  acceptable (TopLabel 2) t (Some (Mat grid_rows)) None None /\ all_entries (on_grid 3) (Mat grid_rows) /\
  red (apply_patches (TopLabel 2) (snd (calibrate (TopLabel 2) fresh t (Some (Mat grid_rows)) None 3 None)) (Mat grid_rows)) = Ok (Mat [[1; 1 # 2]; [2 # 3; 0]; [2 # 3; 0]; [2 # 3; 0]; [0; 1]]).
Proof. exact case_grid. Qed.
Example C163_case_two : red (apply_patches (TopLabel 2) (snd (calibrate (TopLabel 2) fresh (ints [1; 1]) (Some (Mat two_rows)) None 3 None)) (Mat two_rows)) = Ok (Mat [[0; 2 # 5]; [2 # 5; 1]]).
Proof. exact two_result. Qed.
Example C163_case_binary : exists r, fst (calibrate Binary fresh (ints [1; 0; 1; 1]) (Some (Vec [0; 1 # 10; 1 # 2; 1])) (Some (Vec [1 # 20; 9 # 10])) 3 (Some 0)) = Ok (Some (Vec r)) /\ map Qred r = [1 # 2; 1].
Proof. exact case_binary. Qed.
