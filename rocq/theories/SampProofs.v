(** Samples of loaders of inputs and targets. *)
From Coq Require Import List Arith Lia Bool.
From Verif Require Import Lib LoaderModel LoaderSpec SampModel SampSpec.
Import ListNotations.

Lemma mask_chosen {X} m : forall xs : list X, mask_select m xs = chosen m xs.
Proof. unfold chosen. induction m as [|b m IH]; intros [|x xs]; try reflexivity. cbn [mask_select combine filter fst]. destruct b; cbn [map snd]; now rewrite IH. Qed.

(** ---- rows ---- *)
Fixpoint sel {X} (draw : nat -> list bool) (i : nat) (l : list (list X)) : list X :=
  match l with [] => [] | xs :: r => chosen (draw i) xs ++ sel draw (S i) r end.
Lemma sel_pass {X} draw : forall (l : list (list X)) i, sel draw i l = concat (map (fun b => chosen (draw (i + b)) (nth b l [])) (seq 0 (length l))).
Proof.
  induction l as [|xs l IH]; intros i; [reflexivity|]. cbn [sel length seq map concat nth]. rewrite Nat.add_0_r. f_equal. rewrite IH, <- seq_shift, map_map. f_equal.
  apply map_ext. intros b. cbn [nth]. now rewrite Nat.add_succ_r.
Qed.
Fixpoint passes {X} (draw : nat -> list bool) (i : nat) (l : list (list X)) (k : nat) : list X :=
  match k with 0 => [] | S k => sel draw i l ++ passes draw (i + length l) l k end.
Lemma passes_shift {X} draw (l : list (list X)) : forall k p, passes draw (p * length l) l k = concat (map (pass_rows draw l) (seq p k)).
Proof.
  induction k as [|k IH]; intros p; [reflexivity|]. cbn [passes seq map concat]. f_equal; [apply sel_pass|]. rewrite <- IH. f_equal. lia.
Qed.
Lemma passes_stream {X} draw (l : list (list X)) k : passes draw 0 l k = stream draw l k.
Proof. exact (passes_shift draw l k 0). Qed.

Lemma pass_spec {X} draw n : forall (l : list (list X)) count i out c j, count <= n -> sample1_pass draw n count i l = (out, c, j) ->
  concat out = firstn (n - count) (sel draw i l) /\ c = Nat.min n (count + length (sel draw i l)) /\ (c <> n -> j = i + length l) /\ Forall (fun b => b <> []) out.
Proof.
  induction l as [|xs l IH]; intros count i out c j L E; cbn [sample1_pass sel] in *.
  - injection E as <- <- <-. rewrite firstn_nil. cbn. repeat split; try lia. constructor.
  - rewrite mask_chosen in E. set (x1 := chosen (draw i) xs) in *. destruct (Nat.eqb_spec count n) as [->|N].
    + injection E as <- <- <-. rewrite Nat.sub_diag. cbn. split; [reflexivity|]. split; [lia|]. split; [lia|constructor].
    + set (x2 := if n <? count + length x1 then firstn (n - count) x1 else x1) in *.
      destruct (sample1_pass draw n (count + length x2) (S i) l) as [[rest c'] j'] eqn:P. injection E as <- <- <-.
      assert (X2 : x2 = firstn (n - count) x1 /\ length x2 = Nat.min (n - count) (length x1)).
      { unfold x2. destruct (Nat.ltb_spec n (count + length x1)).
        - split; [reflexivity|]. apply firstn_length.
        - split; [symmetry; apply firstn_all2; lia|lia]. }
      destruct X2 as (X2 & LX). destruct (IH (count + length x2) (S i) rest c' j') as (A & B & C & D); [lia|exact P|].
      split; [|split; [|split]].
      * rewrite firstn_app, <- X2. assert (CC : concat (if 0 <? length x2 then x2 :: rest else rest) = x2 ++ concat rest).
        { destruct (Nat.ltb_spec 0 (length x2)); [reflexivity|]. destruct x2; [reflexivity|cbn in *; lia]. }
        rewrite CC, A. f_equal. f_equal. lia.
      * rewrite app_length. lia.
      * intros NC. rewrite (C NC). cbn. lia.
      * destruct (Nat.ltb_spec 0 (length x2)); [constructor; [intros Z; rewrite Z in *; cbn in *; lia|exact D]|exact D].
Qed.
Lemma loop_spec {X} draw n (l : list (list X)) : forall fuel count i, count <= n ->
  (1 <= fuel -> n <= count + length (passes draw i l fuel) ->
     exists out, sample1_loop fuel draw n count i l = Some out /\ concat out = firstn (n - count) (passes draw i l fuel) /\ Forall (fun b => b <> []) out) /\
  (count + length (passes draw i l fuel) < n -> sample1_loop fuel draw n count i l = None).
Proof.
  induction fuel as [|fuel IH]; intros count i L; [split; [lia|reflexivity]|]. cbn [sample1_loop passes]. rewrite app_length.
  destruct (sample1_pass draw n count i l) as [[out c] j] eqn:P. destruct (pass_spec draw n l count i out c j L P) as (A & B & C & D).
  destruct (Nat.eqb_spec c n) as [->|N].
  - split; [|lia]. intros _ _. exists out. split; [reflexivity|]. split; [|exact D]. rewrite A, firstn_app. replace (n - count - length (sel draw i l)) with 0 by lia. now rewrite firstn_O, app_nil_r.
  - rewrite (C N). destruct (IH c (i + length l)) as (I1 & I2); [lia|]. assert (CE : c = count + length (sel draw i l)) by lia. split.
    + intros _ H. assert (F1 : 1 <= fuel) by (destruct fuel; [cbn in H; lia|lia]).
      destruct (I1 F1) as (o & E & O & F); [lia|]. rewrite E. exists (out ++ o). split; [reflexivity|]. split; [|apply Forall_app; now split].
      rewrite concat_app, O, A, firstn_app. f_equal. rewrite CE. f_equal. lia.
    + intros H. rewrite I2 by lia. reflexivity.
Qed.
Theorem sample_stream : forall X draw n fuel (l : list (list X)), 1 <= fuel ->
  (n <= length (stream draw l fuel) -> exists out, sample1 fuel draw n l = Some out /\ concat out = firstn n (stream draw l fuel) /\ Forall (fun b => b <> []) out) /\
  (length (stream draw l fuel) < n -> sample1 fuel draw n l = None).
Proof.
  intros X draw n fuel l F. destruct (loop_spec draw n l fuel 0 0 (Nat.le_0_l n)) as (A & B). rewrite passes_stream in A, B. rewrite Nat.sub_0_r in A. split; [intros H; exact (A F H)|exact B].
Qed.

(** ---- the same draws select the same rows of inputs, targets and pairs ---- *)
Lemma chosen_length {X Y} m (xs : list X) (ys : list Y) : length xs = length ys -> length (mask_select m xs) = length (mask_select m ys).
Proof. revert xs ys. induction m as [|b m IH]; intros [|x xs] [|y ys] L; try discriminate L; try reflexivity. cbn [mask_select]. destruct b; cbn [length]; rewrite (IH xs ys); cbn in L; lia. Qed.
Lemma pass_pairs {X Y} draw n : forall (l : list (batch X Y)) count i, aligned l ->
  let '(out, c, j) := sample_pass draw n count i l in
  sample1_pass draw n count i (map fst l) = (map fst out, c, j) /\ sample1_pass draw n count i (map snd l) = (map snd out, c, j).
Proof.
  induction l as [|[xs ys] l IH]; intros count i A; [split; reflexivity|]. apply Forall_inv in A as A1. apply Forall_inv_tail in A. cbn [fst snd] in A1.
  cbn [sample_pass sample1_pass map fst snd]. destruct (count =? n); [split; reflexivity|].
  assert (L : length (mask_select (draw i) ys) = length (mask_select (draw i) xs)) by (symmetry; now apply chosen_length). rewrite L.
  set (x2 := if n <? count + length (mask_select (draw i) xs) then firstn (n - count) (mask_select (draw i) xs) else mask_select (draw i) xs).
  set (y2 := if n <? count + length (mask_select (draw i) xs) then firstn (n - count) (mask_select (draw i) ys) else mask_select (draw i) ys).
  assert (L2 : length y2 = length x2) by (unfold x2, y2; destruct (n <? _); rewrite ?firstn_length, ?L; reflexivity). rewrite L2.
  specialize (IH (count + length x2) (S i) A). destruct (sample_pass draw n (count + length x2) (S i) l) as [[out c] j]. destruct IH as (-> & ->).
  destruct (0 <? length x2); split; reflexivity.
Qed.
Lemma loop_pairs {X Y} draw n (l : list (batch X Y)) : aligned l -> forall fuel count i,
  sample1_loop fuel draw n count i (map fst l) = option_map (map fst) (sample_loop fuel draw n count i l) /\
  sample1_loop fuel draw n count i (map snd l) = option_map (map snd) (sample_loop fuel draw n count i l).
Proof.
  intros A. induction fuel as [|fuel IH]; intros count i; [split; reflexivity|]. cbn [sample1_loop sample_loop].
  pose proof (pass_pairs draw n l count i A) as P. destruct (sample_pass draw n count i l) as [[out c] j]. destruct P as (-> & ->).
  destruct (c =? n); [split; reflexivity|]. destruct (IH c j) as (-> & ->). destruct (sample_loop fuel draw n c j l) as [o|]; cbn [option_map]; rewrite ?map_app; split; reflexivity.
Qed.
Theorem sample_aligned : forall X Y draw n fuel (l : list (batch X Y)), aligned l ->
  sample1 fuel draw n (map fst l) = option_map (map fst) (sample fuel draw n l) /\ sample1 fuel draw n (map snd l) = option_map (map snd) (sample fuel draw n l).
Proof. intros X Y draw n fuel l A. exact (loop_pairs draw n l A fuel 0 0). Qed.

(** ---- no row twice in a pass ---- *)
Lemma chosen_incl {X} m (xs : list X) : incl (chosen m xs) xs.
Proof. intros x I. apply in_map_iff in I. destruct I as ([b y] & <- & I). apply filter_In in I. destruct I as (I & _). now apply in_combine_r in I. Qed.
Lemma chosen_nodup {X} m : forall xs : list X, NoDup xs -> NoDup (chosen m xs).
Proof.
  induction m as [|b m IH]; intros [|x xs] N; try constructor. inversion N as [|? ? N1 N2]. subst. unfold chosen in *. cbn [combine filter fst]. destruct b; cbn [map snd]; [|now apply IH].
  constructor; [|now apply IH]. intros I. apply N1. now apply (chosen_incl m xs).
Qed.
Lemma nodup_app {X} (a b : list X) : NoDup a -> NoDup b -> (forall x, In x a -> ~ In x b) -> NoDup (a ++ b).
Proof.
  induction a as [|x a IH]; intros A B D; [exact B|]. inversion A. subst. cbn [app]. constructor.
  - rewrite in_app_iff. intros [I|I]; [tauto|]. apply (D x); [now left|exact I].
  - apply IH; auto. intros y I. apply D. now right.
Qed.
Lemma app_nodup {X} (a b : list X) : NoDup (a ++ b) -> NoDup a /\ NoDup b /\ forall x, In x a -> ~ In x b.
Proof.
  induction a as [|x a IH]; intros N; [repeat split; auto; constructor|]. cbn [app] in N. inversion N as [|? ? N1 N2]. subst. destruct (IH N2) as (A & B & D).
  rewrite in_app_iff in N1. repeat split; [constructor; tauto|exact B|]. intros y [<-|I]; [tauto|now apply D].
Qed.
Lemma sel_incl {X} draw : forall (l : list (list X)) i, incl (sel draw i l) (concat l).
Proof. induction l as [|xs l IH]; intros i; [intros x I; exact I|]. cbn [sel concat]. apply incl_app; [apply incl_appl, chosen_incl|apply incl_appr, IH]. Qed.
Lemma sel_nodup {X} draw : forall (l : list (list X)) i, NoDup (concat l) -> NoDup (sel draw i l).
Proof.
  induction l as [|xs l IH]; intros i N; [constructor|]. cbn [sel concat] in *. apply app_nodup in N. destruct N as (A & B & D). apply nodup_app; [now apply chosen_nodup|now apply IH|].
  intros x I J. apply (D x); [now apply chosen_incl in I|now apply sel_incl in J].
Qed.
Lemma nodup_firstn {X} n : forall l : list X, NoDup l -> NoDup (firstn n l).
Proof. intros l N. rewrite <- (firstn_skipn n l) in N. now apply app_nodup in N. Qed.
Theorem sample_distinct : forall X draw n fuel (l : list (list X)) out, NoDup (concat l) -> n <= length (pass_rows draw l 0) ->
  sample1 fuel draw n l = Some out -> NoDup (concat out).
Proof.
  intros X draw n fuel l out N H E. destruct fuel as [|fuel]; [discriminate|]. destruct (sample_stream X draw n (S fuel) l ltac:(lia)) as (A & _).
  assert (ST : stream draw l (S fuel) = pass_rows draw l 0 ++ concat (map (pass_rows draw l) (seq 1 fuel))) by reflexivity.
  destruct A as (o & E' & O & _); [rewrite ST, app_length; lia|]. rewrite E in E'. injection E' as <-. rewrite O, ST, firstn_app.
  replace (n - length (pass_rows draw l 0)) with 0 by lia. rewrite firstn_O, app_nil_r. apply nodup_firstn.
  assert (PS : sel draw 0 l = pass_rows draw l 0) by exact (sel_pass draw l 0). rewrite <- PS. now apply sel_nodup.
Qed.
