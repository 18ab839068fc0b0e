From Coq Require Import List Arith ZArith QArith Qabs Bool Lia Lqa.
From Verif Require Import Lib LoaderProofs QuantModel QuantSpec QuantProofs ConfRegModel ConfRegProofs ConfClassModel ConfClassProofs ConfClassProofs2 ConfClassSpec ConfClassProofs3 MultiModel MultiSpec MultiProofs MultiProofs2 MultiProofs3 MultiProofs4 MultiProofs5 OneShotModel OneShotSpec.
Import ListNotations.
Open Scope Q_scope.

(** ---- argument checks ---- *)
Lemma outside_false x : outside x = false <-> in_unit x.
Proof. unfold outside, in_unit. rewrite orb_false_iff, !Qltb_false. reflexivity. Qed.
Lemma none_outside l : existsb outside l = false <-> Forall in_unit l.
Proof.
  induction l as [|x l IH]; cbn [existsb]; [split; [constructor|reflexivity]|]. rewrite orb_false_iff, outside_false, IH. split; [intros []; now constructor|].
  intros F. inversion_clear F. now split.
Qed.
Lemma forall_concat {A} (P : A -> Prop) rows : Forall P (concat rows) <-> Forall (Forall P) rows.
Proof.
  induction rows as [|r rows IH]; cbn [concat]; [split; constructor|]. rewrite Forall_app, IH. split; [intros []; now constructor|]. intros F. inversion_clear F. now split.
Qed.
Lemma entries_unit a : existsb outside (entries a) = false <-> all_entries in_unit a.
Proof. rewrite none_outside. destruct a as [l|rows]; cbn; [reflexivity|apply forall_concat]. Qed.
Lemma existsb_Qeq l z : existsb (fun y => Qeq_bool y z) l = true <-> exists y, In y l /\ y == z.
Proof. rewrite existsb_exists. split; intros (y & H & E); exists y; (split; [exact H|]); now apply Qeq_bool_iff. Qed.

Definition scores_of (k : kind) (l : list Q) : list (list Q) :=
  match k with TopLabel m => map (fun y => map (fun i => of_bool (Qeq_bool y (inject_Z (Z.of_nat i)))) (seq 0 m)) l | _ => map (fun y => [y]) l end.

Lemma targets_checked k t : good_targets k t \/ ~ good_targets k t.
Proof.
  unfold good_targets. destruct (t_array t) as [l|rows]; [|right; intros (l & E & _); discriminate].
  enough (D : forall P : Prop, P \/ ~ P -> (exists l0, Vec l = Vec l0 /\ P) \/ ~ (exists l0, Vec l = Vec l0 /\ P)).
  { destruct k.
    - destruct (existsb outside l) eqn:E; [right; intros (l' & [= <-] & F); apply none_outside in F; congruence|left; exists l; split; [reflexivity|]; now apply none_outside].
    - destruct (t_int t); [|right; intros (l' & _ & X & _); discriminate].
      destruct (forallb (fun y => Qeq_bool y 0 || Qeq_bool y 1) l) eqn:E1.
      2: { right. intros (l' & [= <-] & _ & X & _). apply Bool.not_true_iff_false in E1. apply E1. apply forallb_forall. intros y Hy. apply orb_true_iff. rewrite !Qeq_bool_iff. auto. }
      destruct (existsb (fun y => Qeq_bool y 0) l) eqn:E2; [|right; intros (l' & [= <-] & _ & _ & X & _); apply existsb_Qeq in X; congruence].
      destruct (existsb (fun y => Qeq_bool y 1) l) eqn:E3; [|right; intros (l' & [= <-] & _ & _ & _ & X); apply existsb_Qeq in X; congruence].
      left. exists l. repeat split; [|now apply existsb_Qeq|now apply existsb_Qeq]. intros y Hy. rewrite forallb_forall in E1. specialize (E1 y Hy). apply orb_true_iff in E1. now rewrite !Qeq_bool_iff in E1.
    - destruct (t_int t); [|right; intros (l' & _ & X & _); discriminate]. destruct n_classes as [|m]; [right; intros (l' & _ & _ & X); lia|].
      left. exists l. repeat split. lia. }
  intros P [H|H]; [left; exists l; now split|right; intros (l0 & _ & X); contradiction].
Qed.
(** get_scores and check_scores together accept exactly the good targets *)
Lemma targets_ok k t : good_targets k t -> exists l, t_array t = Vec l /\ get_scores k t = Ok (scores_of k l) /\ check_scores k t = Ok tt.
Proof.
  intros (l & E & H). exists l. split; [exact E|]. unfold get_scores, check_scores, scores_of. rewrite E. cbn [is_vec entries negb]. destruct k.
  - split; [reflexivity|]. now rewrite (proj2 (none_outside l) H).
  - split; [reflexivity|]. destruct H as (I & F & Z0 & Z1). rewrite I.
    replace (forallb _ l) with true. 2: { symmetry. apply forallb_forall. intros y Hy. apply orb_true_iff. rewrite !Qeq_bool_iff. auto. }
    rewrite (proj2 (existsb_Qeq l 0) Z0), (proj2 (existsb_Qeq l 1) Z1). reflexivity.
  - destruct H as [I M]. rewrite I. destruct n_classes; [lia|]. split; reflexivity.
Qed.
Lemma targets_bad k t : ~ good_targets k t ->
  get_scores k t = Err ValueError \/ (exists s, get_scores k t = Ok s) /\ check_scores k t = Err ValueError.
Proof.
  intros H. unfold get_scores, check_scores. destruct k.
  - right. split; [destruct (t_array t); eexists; reflexivity|]. destruct (t_array t) as [l|] eqn:E; [|reflexivity]. cbn [is_vec entries negb].
    destruct (existsb outside l) eqn:X; [reflexivity|]. exfalso. apply H. exists l. split; [exact E|]. now apply none_outside.
  - right. split; [destruct (t_array t); eexists; reflexivity|]. destruct (t_array t) as [l|] eqn:E; [|reflexivity]. cbn [is_vec entries negb].
    destruct (forallb _ l) eqn:E1; [|reflexivity]. destruct (existsb (fun y => Qeq_bool y 0) l) eqn:E2; [|reflexivity]. destruct (existsb (fun y => Qeq_bool y 1) l) eqn:E3; [|reflexivity].
    cbn [andb negb]. destruct (t_int t) eqn:I; [|reflexivity]. exfalso. apply H. exists l. repeat split; [exact E|exact I| |now apply existsb_Qeq|now apply existsb_Qeq].
    intros y Hy. rewrite forallb_forall in E1. specialize (E1 y Hy). apply orb_true_iff in E1. now rewrite !Qeq_bool_iff in E1.
  - left. destruct (t_array t) as [l|] eqn:E; [|reflexivity]. cbn [is_vec negb]. destruct (t_int t) eqn:I; [|reflexivity]. cbn [negb].
    destruct n_classes as [|m]; [reflexivity|]. exfalso. apply H. exists l. repeat split; [exact E|exact I|lia].
Qed.
Definition good_values (k : kind) (a : array) (test : option array) : Prop :=
  (axes a = needed k /\ all_entries in_unit a) /\ (forall b, test = Some b -> all_entries in_unit b /\ (k <> Plain -> axes b = needed k)).
Lemma values_ok k a test : (good_values k a test /\ check_values k a test = Ok tt) \/ (~ good_values k a test /\ check_values k a test = Err ValueError).
Proof.
  unfold check_values, good_values.
  assert (W : forall b, (match k with TopLabel _ => is_vec b | _ => negb (is_vec b) end) = false <-> axes b = needed k) by (intros [l|l]; destruct k; cbn; split; (reflexivity || discriminate)).
  destruct (match k with TopLabel _ => is_vec a | _ => negb (is_vec a) end) eqn:E.
  { right. split; [|reflexivity]. intros [[X _] _]. apply W in X. congruence. }
  destruct (existsb outside (entries a)) eqn:U.
  { right. split; [|reflexivity]. intros [[_ X] _]. apply entries_unit in X. congruence. }
  apply W in E. apply entries_unit in U. destruct test as [b|]; [|left; split; [|reflexivity]; split; [now split|discriminate]].
  destruct (match k with Plain => false | _ => match k with TopLabel _ => is_vec b | _ => negb (is_vec b) end end) eqn:E2.
  { right. split; [|reflexivity]. intros [_ X]. destruct (X b eq_refl) as [_ Y]. destruct k; [discriminate| |]; specialize (Y ltac:(discriminate)); apply W in Y; congruence. }
  destruct (existsb outside (entries b)) eqn:U2.
  { right. split; [|reflexivity]. intros [_ X]. destruct (X b eq_refl) as [Y _]. apply entries_unit in Y. congruence. }
  left. split; [|reflexivity]. split; [now split|]. intros b' [= <-]. split; [now apply entries_unit|]. intros NP. apply W. destruct k; [congruence|exact E2|exact E2].
Qed.

(** ---- patches ---- *)
Lemma scores_column k l c : (c < width k)%nat -> length (column_of c (scores_of k l)) = length l.
Proof. intros _. unfold column_of. rewrite map_length. unfold scores_of. destruct k; now rewrite map_length. Qed.
Lemma get_b_length n a v c : length (get_b n a v c) = points a.
Proof. destruct a; cbn; now rewrite map_length. Qed.
Lemma common_ok n m : (n = m \/ n = 1 \/ m = 1)%nat -> exists len, common_length n m = Ok len /\ (len = n \/ len = m) /\ (n = len \/ n = 1%nat) /\ (m = len \/ m = 1%nat).
Proof.
  intros H. unfold common_length. destruct (Nat.eqb_spec n m); [exists n; split; [reflexivity|lia]|]. destruct (Nat.eqb_spec n 1); [exists m; split; [reflexivity|lia]|].
  destruct (Nat.eqb_spec m 1); [exists n; split; [reflexivity|lia]|lia].
Qed.
Lemma common_bad n m : ~ (n = m \/ n = 1 \/ m = 1)%nat -> common_length n m = Err TypeError.
Proof. intros H. unfold common_length. destruct (Nat.eqb_spec n m); [lia|]. destruct (Nat.eqb_spec n 1); [lia|]. destruct (Nat.eqb_spec m 1); [lia|reflexivity]. Qed.
Lemma mapM_first {A B} (f : A -> result B) x l e : f x = Err e -> mapM f (x :: l) = Err e.
Proof. intros E. cbn. now rewrite E. Qed.

Definition the_patch (n : nat) (p : Q) (scores : list Q) (a : array) (v : Q) (c : nat) : Q :=
  match get_patch n p scores a v c with Ok q => q | Err _ => 0 end.
Definition the_patches (k : kind) (n : nat) (p : Q) (l : list Q) (a : array) : list (list Q) :=
  map (fun v => map (fun c => the_patch n p (column_of c (scores_of k l)) a v c) (seq 0 (width k))) (get_buckets n).
Lemma mapM_pure {A B} (f : A -> result B) (g : A -> B) l : (forall x, In x l -> f x = Ok (g x)) -> mapM f l = Ok (map g l).
Proof. induction l as [|x l IH]; intros H; [reflexivity|]. cbn. rewrite (H x (or_introl eq_refl)). cbn. rewrite IH; [reflexivity|]. intros y Hy. apply H. now right. Qed.
Lemma width_dims k : (match k with TopLabel m => m | _ => 1%nat end) = width k.
Proof. destruct k; reflexivity. Qed.
Lemma buckets_cons n : (0 < n)%nat -> exists v vs, get_buckets n = v :: vs.
Proof. intros N. pose proof (linspace_length 0 1 n) as L. unfold get_buckets. destruct (linspace 0 1 n) as [|v vs]; [cbn in L; lia|]. now exists v, vs. Qed.

Lemma good_width k t : good_targets k t -> (0 < width k)%nat.
Proof. intros (l & _ & H). destruct k; cbn; [lia|lia|tauto]. Qed.
Lemma calibrate_good k o t a test n p : good_targets k t -> good_values k a test -> (forall q, p = Some q -> in_unit q) -> (0 < n)%nat ->
  exists l, t_array t = Vec l /\
  (compatible t a -> let o' := {| o_patches := Some (the_patches k n (init_min_prob p n (width k)) l a); o_n_buckets := Some n |} in
     calibrate k o t (Some a) test n p = (match test with None => Ok None | Some b => rmap Some (apply_patches k o' b) end, o')) /\
  (~ compatible t a -> calibrate k o t (Some a) test n p = (Err TypeError, {| o_patches := o_patches o; o_n_buckets := Some n |})).
Proof.
  intros G V P N. destruct (targets_ok k t G) as (l & E & S & C). exists l. split; [exact E|]. unfold calibrate. rewrite S, C. cbn [bind].
  assert (PF : match p with None => false | Some p0 => Qlt_bool p0 0 || Qlt_bool 1 p0 end = false).
  { destruct p as [q|]; [|reflexivity]. apply outside_false. now apply P. }
  destruct (values_ok k a test) as [[_ CV]|[X _]]; [|contradiction].
  assert (W := good_width k t G). rewrite (width_dims k).
  assert (Pt : points (t_array t) = length l) by now rewrite E.
  split.
  - intros K. set (o' := {| o_patches := Some (the_patches k n (init_min_prob p n (width k)) l a); o_n_buckets := Some n |}).
    rewrite PF, CV.
    rewrite (mapM_pure _ (fun v => map (fun c => the_patch n (init_min_prob p n (width k)) (column_of c (scores_of k l)) a v c) (seq 0 (width k)))).
    + fold (the_patches k n (init_min_prob p n (width k)) l a). fold o'. destruct test; reflexivity.
    + intros v _. apply mapM_pure. intros c Hc. apply in_seq in Hc. unfold the_patch, get_patch.
      rewrite (scores_column k l c) by lia. rewrite get_b_length. unfold compatible in K. rewrite Pt in K. destruct (common_ok _ _ K) as (len & -> & _). reflexivity.
  - intros K. rewrite PF, CV. destruct (buckets_cons n N) as (v & vs & ->).
    rewrite (mapM_first _ v vs TypeError); [destruct test; reflexivity|]. destruct (width k) as [|w] eqn:Ew; [lia|]. cbn [seq]. apply mapM_first. unfold get_patch.
    rewrite (scores_column k l 0) by lia. rewrite get_b_length. unfold compatible in K. rewrite Pt in K. now rewrite (common_bad _ _ K).
Qed.
Theorem checks : forall k o t values test n p, (0 < n)%nat ->
  let r := calibrate k o t values test n p in
  (~ acceptable k t values test p -> r = (Err ValueError, o)) /\
  (forall a, acceptable k t values test p -> values = Some a -> ~ compatible t a ->
     fst r = Err TypeError /\ o_patches (snd r) = o_patches o /\ o_n_buckets (snd r) = Some n) /\
  (forall a, acceptable k t values test p -> values = Some a -> compatible t a ->
     (forall o', calibrate k o' t values test n p = r) /\ o_patches (snd r) <> None /\ o_n_buckets (snd r) = Some n /\
     match test with
     | None => fst r = Ok None
     | Some b => fst r = match apply_patches k (snd r) b with Ok y => Ok (Some y) | Err e => Err e end
     end).
Proof.
  intros k o t values test n p N r. unfold r. clear r. split; [|split].
  - intros H. unfold calibrate. destruct (targets_checked k t) as [G|G].
    2: { destruct (targets_bad k t G) as [->|[(s & ->) C]]; [reflexivity|]. rewrite C. cbn [bind].
         destruct values, test; try reflexivity; now destruct (match p with None => false | Some p0 => _ end). }
    destruct (targets_ok k t G) as (l & E & -> & ->). cbn [bind].
    destruct values as [a|]; [|destruct test; [reflexivity|now destruct (match p with None => false | Some p0 => _ end)]].
    destruct (match p with None => false | Some p0 => Qlt_bool p0 0 || Qlt_bool 1 p0 end) eqn:PF; [now destruct test|].
    destruct (values_ok k a test) as [[V _]|[_ ->]]; [|now destruct test].
    exfalso. apply H. destruct V as [V1 V2]. split; [exact G|]. split; [exists a; now split|]. split; [exact V2|]. intros q ->. now apply outside_false.
  - intros a (G & (a' & E & V1) & V2 & P) -> K. injection E as <-. destruct (calibrate_good k o t a test n p G (conj V1 V2) P N) as (l & _ & _ & B). rewrite (B K). now repeat split.
  - intros a (G & (a' & E & V1) & V2 & P) -> K. injection E as <-. destruct (calibrate_good k o t a test n p G (conj V1 V2) P N) as (l & El & B & _). rewrite (B K). cbn [fst snd o_patches o_n_buckets].
    split; [|split; [discriminate|split; [reflexivity|]]].
    + intros o'. destruct (calibrate_good k o' t a test n p G (conj V1 V2) P N) as (l' & El' & B' & _). rewrite El in El'. injection El' as <-. exact (B' K).
    + destruct test; [|reflexivity]. unfold rmap, bind. reflexivity.
Qed.
